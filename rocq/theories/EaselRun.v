(** The brush engine gets through every event: the way from one dab to the next,
    to the target of the event, and from event to event. *)
From Verif Require Import Base F32 F32Proofs Arith Color Mapping P_Mapping Settings Spectral Brush BrushProofs ReturnProofs StepFacts BrushInst BrushToy P_Abort P_Limits P_Endless EaselNum EaselDab EaselStep EaselProofs.
From Coq Require Import Reals Lra.
From Flocq Require Import Core.Core IEEE754.BinarySingleNaN.
Local Open Scope Z_scope.

Section Easel.
  Context (L : mathlib mix64) {E : env mix64} (EM : easel_maths L) (FR : fair E) (Inv : e_surf E -> Prop).
  Context (HD : forall sf d, Inv sf -> drawable d -> exists p sf', e_draw E sf d = Ok (p, sf') /\ Inv sf').

  (** *** The way to the target of an event *)
  Lemma scaled : forall (k m : Z) (v t f : f32), zf (- k) v k -> zf (- m) t m -> 0 <= k <= 1048576 -> 0 <= m <= 1048576 -> fin f -> (0 <= b2r f <= 3)%R ->
    fin (fmul f (fsub t v)) /\ b2r (fmul f (fsub t v)) = rnd32 (b2r f * b2r (fsub t v)) /\
    ((b2r f <= 1)%R -> fin (fmul (fsub t v) f) /\ b2r (fmul (fsub t v) f) = rnd32 (b2r f * b2r (fsub t v))).
  Proof.
    intros k m v t f (Fv & Hv) (Ft & Ht) Hk Hm Ff Hf. rewrite opp_IZR in Hv, Ht. destruct Hk as (_ & Hk), Hm as (_ & Hm). apply IZR_le in Hk, Hm.
    destruct (zf_sub (-2097152) 2097152 t v Ft Fv) as ((Fs & Hs) & _); [split; lia|simpl; lra|]. simpl in Hs.
    destruct (zf_mul (-6291456) 6291456 f _ Ff Fs) as ((F1 & _) & V1); [split; lia|simpl; nra|]. split; [exact F1|]. split; [exact V1|]. intros Hf1.
    destruct (zf_mul (-6291456) 6291456 _ f Fs Ff) as ((F2 & _) & V2); [split; lia|simpl; nra|]. split; [exact F2|]. rewrite V2. f_equal. ring.
  Qed.

  Lemma toward_in : forall (k m : Z) (v t f : f32), zf (- k) v k -> zf (- m) t m -> 0 <= m -> m + 1 <= k -> k <= 1048576 -> fin f -> (0 <= b2r f <= 1)%R ->
    zf (- k) (fadd v (fmul (fsub t v) f)) k /\ zf (- k) (fadd v (fmul f (fsub t v))) k.
  Proof.
    intros k m v t f Hv Ht H0 H1 H2 Ff Hf. destruct (scaled k m v t f Hv Ht) as (F1 & V1 & Q); [lia|lia|exact Ff|lra|]. destruct Q as (F2 & V2); [lra|].
    split; [apply (move_in (- k) k (- m) m v t _ f)|apply (move_in (- k) k (- m) m v t _ f)]; auto; lia.
  Qed.
  Lemma toward_out : forall (k m n : Z) (v t f : f32), zf (- k) v k -> zf (- m) t m -> 0 <= m -> 0 <= k -> n = 4 * k + 3 * m + 2 -> n <= 1048576 -> fin f -> (0 <= b2r f <= 3)%R ->
    zf (- n) (fadd v (fmul f (fsub t v))) n.
  Proof.
    intros k m n v t f Hv Ht H0 H1 -> H2 Ff Hf. destruct (scaled k m v t f Hv Ht) as (F1 & V1 & _); [lia|lia|exact Ff|exact Hf|]. apply (move_out k m v t _ f); auto.
  Qed.

  Lemma toward_two : forall (k m n : Z) (v t f : f32), zf (- k) v k -> zf (- m) t m -> 0 <= m -> 0 <= k -> m <= n -> k <= n -> 513 * k + 1025 * m + 1024 <= 512 * n -> n <= 1048576 ->
    fin f -> (0 <= b2r f <= 1025 / 512)%R -> zf (- n) (fadd v (fmul f (fsub t v))) n.
  Proof.
    intros k m n v t f Hv Ht H0 H1 H2 H3 H4 H5 Ff Hf. destruct (scaled k m v t f Hv Ht) as (F1 & V1 & _); [lia|lia|exact Ff|lra|]. apply (move_two k m n v t _ f); auto.
  Qed.

  Lemma rest_small : forall m t : f32, fin m -> (0 <= b2r m < 1)%R -> upto t -> dle (d_of_Z 1) (d_of_f (fadd m t)) = false ->
    fin t /\ (0 <= b2r t <= 1)%R /\ fin (fadd m t) /\ (0 <= b2r (fadd m t) < 1)%R.
  Proof.
    intros m t Fm Hm Ht Hp. destruct (zd_Z 1) as ((G1 & _) & W1); [lia|]. simpl in W1.
    assert (fadd m t <> B754_infinity false) as Fi.
    { intros C. rewrite C in Hp. assert (d_of_f (B754_infinity false) = B754_infinity false) as Q by reflexivity. rewrite Q in Hp.
      clear - Hp G1. destruct (d_of_Z 1) as [q|q| |q mm ee pf]; try discriminate G1; destruct q; discriminate Hp. }
    destruct Ht as [-> | (Ft & Ht)].
    { exfalso. apply Fi. clear - Fm. destruct m as [q|q| |q mm ee pf]; try discriminate Fm; reflexivity. }
    pose proof (Bplus_correct 24 128 _ _ mode_NE m t Fm Ft : if Rlt_bool (Rabs (rnd32 (b2r m + b2r t))) (bpow radix2 128) then b2r (fadd m t) = rnd32 (b2r m + b2r t) /\ fin (fadd m t) /\ _ else B2SF (fadd m t) = binary_overflow 24 128 mode_NE (Bsign m) /\ Bsign m = Bsign t) as C.
    destruct (Rlt_bool_spec (Rabs (rnd32 (b2r m + b2r t))) (bpow radix2 128)) as [K|K].
    - destruct C as (Va & Fa & _). split; [exact Ft|]. destruct (d_of_f_exact _ Fa) as (Wa & Ga). rewrite dle_spec, W1, Wa, Va in Hp by auto.
      destruct (Rle_bool_spec 1 (rnd32 (b2r m + b2r t))) as [D|D]; [discriminate Hp|].
      assert (b2r m + b2r t < 1)%R. { destruct (Rlt_dec (b2r m + b2r t) 1); [assumption|]. assert (1 <= rnd32 (b2r m + b2r t))%R; [apply rnd32_ge_r; [apply (rep32_IZR 1); lia|lra]|lra]. }
      split; [lra|]. split; [exact Fa|]. rewrite Va. split; [apply rnd32_ge_r; [apply (rep32_IZR 0); lia|simpl; lra]|exact D].
    - exfalso. destruct C as (C & Sg). apply Fi. assert (Bsign m = false) as Sm.
      { rewrite Sg. destruct t as [q|q| |q mm ee pf]; try discriminate Ft; [|destruct q; [|reflexivity]].
        - exfalso. change (b2r (B754_zero q : f32)) with 0%R in K. rewrite Rplus_0_r in K. rewrite rnd32_id in K by apply rep32_b2r. rewrite Rabs_pos_eq in K by apply Hm. pose proof (bpow_le radix2 0 128 ltac:(lia)) as K0. change (bpow radix2 0) with 1%R in K0. destruct Hm. lra.
        - exfalso. change (b2r (B754_finite true mm ee pf : f32)) with (F2R (Float radix2 (Z.neg mm) ee)) in Ht. pose proof (F2R_lt_0 radix2 (Float radix2 (Z.neg mm) ee) ltac:(cbn; lia)). lra. }
      rewrite Sm in C. apply B2SF_inj. rewrite C. reflexivity.
  Qed.

  Definition aim (g : target mix64) : Prop :=
    zf (-110001) (g_x g) 110001 /\ zf (-110001) (g_y g) 110001 /\ zf 0 (g_pressure g) 1 /\ zf (-100) (g_viewrotation g) 100.
  Definition near_x (k n : Z) (b : brush E) : Prop := zf (- k) (st b STATE_X) k /\ zf (- k) (st b STATE_Y) k /\ zf 0 (st b STATE_PRESSURE) n.
  Definition pen_near (b : brush E) : Prop := zf (- K3) (st b STATE_ACTUAL_X) K3 /\ zf (- K3) (st b STATE_ACTUAL_Y) K3.
  Record under (p : progress E) : Prop := {
    un_ready : ready (p_brush p); un_pen : pen_near (p_brush p); un_surf : Inv (w_surf (p_world p));
    un_moved : fin (p_moved p : f32) /\ (0 <= b2r (p_moved p : f32) < 1)%R; un_todo : upto (p_todo p);
    un_where : near_x 110002 2 (p_brush p) \/ (b2r (p_moved p : f32) = 0%R /\ near_x 331000 13 (p_brush p)) }.

  Lemma count_states : forall (b : brush E) x y t n b', count_dabs_to L b x y t = (n, b') -> only_states b b' /\ forall i, i <> STATE_ACTUAL_RADIUS -> st b' i = st b i.
  Proof.
    intros b x y t n b' H. split; [eapply count_os; eauto|]. intros i Hi. unfold count_dabs_to in H. cbv zeta in H. apply (f_equal snd) in H. cbn [snd] in H. subst b'.
    match goal with |- context [if ?c then _ else _] => destruct c end; [|reflexivity]. apply st_set_other. auto.
  Qed.

  (** from one state to the next: what has to be kept for [ready] *)
  Lemma ready_keep : forall b b' : brush E, ready b -> shape b' -> b_settings b' = b_settings b -> zd 0 (b_random b') 1 -> st b' STATE_FLIP = st b STATE_FLIP -> ready b'.
  Proof. intros b b' (Sh & Tn & Rn & Fl) S' Es Er Ef. split; [exact S'|]. split; [rewrite Es; exact Tn|]. split; [exact Er|]. unfold flip_ok. rewrite Ef. exact Fl. Qed.

  (** the pen keeps within reach of where it is led *)
  Lemma pen_step : forall (b b' : brush E) (dd T : f32), pen_near b -> zf (-331000) (st b' STATE_X) 331000 -> zf (-331000) (st b' STATE_Y) 331000 -> fin T -> zf 0 dd 1 ->
    st b' STATE_ACTUAL_X = fadd (st b STATE_ACTUAL_X) (fmul (fsub (st b' STATE_X) (st b STATE_ACTUAL_X)) (filter_fac (M := mix64) L T dd)) ->
    st b' STATE_ACTUAL_Y = fadd (st b STATE_ACTUAL_Y) (fmul (fsub (st b' STATE_Y) (st b STATE_ACTUAL_Y)) (filter_fac (M := mix64) L T dd)) -> pen_near b'.
  Proof.
    intros b b' dd T (Px & Py) Hx Hy FT (Fd & Hd) Ex Ey. simpl in Hd. destruct (filter_ok L T dd EM FT Fd Hd) as (Ff & Hf). unfold pen_near, K3 in *. rewrite Ex, Ey. clear Ex Ey.
    set (f := filter_fac L T dd) in *. clearbody f. change (car (sng mix64)) with f32 in f.
    split; apply (toward_in 340000 331000); auto; lia.
  Qed.

  Lemma one_dab_ok : forall g p, aim g -> under p -> pending p = true -> exists p', one_dab L g p = Ok p' /\ under p'.
  Proof.
    intros g p (Ax & Ay & Ap & Av) [Rd Pn HI (Fm & Hm) Ut Wh] Pe. unfold pending in Pe. change (@nle (dbl mix64)) with dle in Pe. change (@nofZ (dbl mix64) 1) with (d_of_Z 1) in Pe. change (@wid mix64) with d_of_f in Pe. change (@nadd (sng mix64)) with fadd in Pe.
    destruct (frac_ok _ _ Fm Hm Ut Pe) as (dd & m' & Ed & Zd & Fm' & Hm0 & Ff & Hf & Hf1).
    unfold one_dab. cbv zeta. change (@nlt (sng mix64)) with flt. change (@nar mix64) with f_of_d. change (@wid mix64) with d_of_f. change (@nsub (dbl mix64)) with dsub. change (@nofZ (dbl mix64) 1) with (d_of_Z 1).
    change (@nofZ (sng mix64)) with f_of_Z. change (car (sng mix64)) with f32 in *. rewrite Ed. clear Ed Pe.
    change (@ndiv (sng mix64)) with fdiv. change (@nmul (sng mix64)) with fmul. set (fr := fdiv dd (p_todo p)) in *. clearbody fr. set (b := p_brush p) in *.
    match goal with |- context [update_states L _ ?q] => set (sp := q) end.
    assert (sp_dx sp = fmul fr (fsub (g_x g) (st b STATE_X)) /\ sp_dy sp = fmul fr (fsub (g_y g) (st b STATE_Y)) /\ sp_dpressure sp = fmul fr (fsub (g_pressure g) (st b STATE_PRESSURE)) /\ sp_viewrotation sp = g_viewrotation g /\ sp_ddab sp = dd) as (S1 & S2 & S3 & S4 & S5) by (repeat split; reflexivity).
    clearbody sp.
    assert (zf (-13) (fadd (st b STATE_PRESSURE) (sp_dpressure sp)) 13) as Zp.
    { rewrite S3. destruct Wh as [(_ & _ & Zp)|(H0 & _ & _ & Zp)].
      - apply (toward_out 2 1 13); auto; try lia; try lra; eapply zf_weak; try eassumption; lia.
      - apply (toward_in 13 1); auto; try lia; try (split; [apply Hf|apply Hf1; exact H0]); eapply zf_weak; try eassumption; lia. }
    destruct (update_ok L EM b sp Rd Zp) as (b1 & -> & Ft & Es & Er & Ex & Ey & Epr & Epd & (T & FT & Eax & Eay)); [rewrite S4; exact Av|]. cbn [obind].
    assert (near_x 331000 13 b1) as N1.
    { unfold near_x. rewrite Ex, Ey, Epr, S1, S2. split; [|split; [|apply clamp_pressure; [lia|exact Zp]]].
      - destruct Wh as [(Zx & _)|(H0 & Zx & _)]; [apply (toward_two 110002 110001 331000); auto; lia|apply (toward_in 331000 110001); auto; [lia|lia|lia|split; [apply Hf|apply Hf1; exact H0]]].
      - destruct Wh as [(_ & Zx & _)|(H0 & _ & Zx & _)]; [apply (toward_two 110002 110001 331000); auto; lia|apply (toward_in 331000 110001); auto; [lia|lia|lia|split; [apply Hf|apply Hf1; exact H0]]]. }
    assert (pen_near b1) as P1. { rewrite S5 in Eax, Eay. destruct N1 as (Zx & Zy & _). eapply (pen_step b b1); eauto. }
    clear Eax Eay Ex Ey Epr Zp. match goal with |- context [set_st b1 STATE_FLIP ?v] => set (b2 := set_st b1 STATE_FLIP v) end.
    assert (forall i, i <> STATE_FLIP -> st b2 i = st b1 i) as S2' by (intros i Hi; apply st_set_other; auto).
    assert (fit b2) as Ft2.
    { destruct Ft as [(Sh & Tn & Rn & Fl) Va A R D1 D2 Ra]. split; [split; [apply shape_set; exact Sh|split; [exact Tn|split; [exact Rn|]]]|exact Va| | | | |]; try (rewrite S2' by discriminate; assumption).
      unfold b2, flip_ok. destruct Sh as (Hst & _). rewrite st_set_same by (auto; vm_compute; lia). destruct Fl as [-> | ->]; [right|left]; apply f_eq; vm_compute; reflexivity. }
    destruct P1 as (Px & Py). destruct (prepare_ok L EM FR Inv HD b2 (p_world p) (g_linear g) Ft2) as (pn & b3 & w3 & Ep & HI3); [rewrite S2' by discriminate; exact Px|rewrite S2' by discriminate; exact Py|exact HI|].
    pose proof (prepare_frame L _ _ _ _ _ _ Ep) as Fr. rewrite Ep. cbn [obind]. clear Ep.
    destruct (FR (b_rng b3)) as (r & rg & -> & Zr). cbn [obind].
    destruct (count_dabs_to L (with_random (with_rng b3 rg) r) (g_x g) (g_y g) _) as [todo b4] eqn:Ec. eexists. split; [reflexivity|].
    pose proof (shape_df _ _ Fr (proj1 (ft_ready _ Ft2))) as Sh3. destruct Fr as (Fe & Sm & _). destruct (Sm (proj1 (proj1 (ft_ready _ Ft2)))) as (_ & Sm').
    assert (forall i, (i < 5 \/ 13 < i)%nat -> i <> STATE_FLIP -> i <> STATE_ACTUAL_RADIUS -> st b4 i = st b1 i) as K4.
    { intros i Hi Hi1 Hi2. destruct (count_states _ _ _ _ _ _ Ec) as (_ & K). rewrite K by auto. rewrite <- (S2' i) by auto. unfold st. cbn. apply Sm'. exact Hi. }
    destruct (count_states _ _ _ _ _ _ Ec) as (Os & K).
    constructor; cbn [p_brush p_world p_moved p_todo p_painted p_left p_log].
    - apply (ready_keep b2); [apply Ft2|eapply shape_os; [exact Os|]; destruct Sh3 as (A1 & A2 & A3 & A4); split; [exact A1|split; [exact A2|split; [exact A3|exact A4]]]| | |].
      + destruct Os as (-> & _). cbn. rewrite Fe. reflexivity.
      + destruct Os as (-> & _). cbn. exact Zr.
      + rewrite K by discriminate. unfold st. cbn. apply Sm'. vm_compute. lia.
    - unfold pen_near. rewrite !K4 by (first [discriminate|vm_compute; lia]). split; assumption.
    - exact HI3.
    - split; [exact Fm'|rewrite Hm0; lra].
    - apply (count_upto L EM _ _ _ _ _ _ Ec).
    - right. split; [exact Hm0|]. unfold near_x in *. rewrite !K4 by (first [discriminate|vm_compute; lia]). exact N1.
  Qed.

  Lemma dabs_ok : forall fuel g p, aim g -> under p -> exists r, dabs L fuel g p = Ok r /\ forall p', r = Some p' -> under p' /\ pending p' = false.
  Proof.
    induction fuel as [|n IH]; intros g p A U; cbn [dabs]; destruct (pending p) eqn:Pe.
    - exists None. split; [reflexivity|]. intros; discriminate.
    - exists (Some p). split; [reflexivity|]. intros p' H. injection H as <-. auto.
    - destruct (one_dab_ok g p A U Pe) as (p' & -> & U'). cbn [obind]. apply IH; auto.
    - exists (Some p). split; [reflexivity|]. intros p' H. injection H as <-. auto.
  Qed.

  (** between two events *)
  Record rested (b : brush E) : Prop := {
    re_ready : ready b; re_pen : pen_near b; re_where : near_x 110002 2 b;
    re_partial : fin (st b STATE_PARTIAL_DABS : f32) /\ (0 <= b2r (st b STATE_PARTIAL_DABS : f32) < 1)%R }.

  Lemma move_full : forall k m (v t d : f32), zf (- k) v k -> zf (- m) t m -> k <= 1048576 -> m <= 1048576 -> fin d -> b2r d = b2r (fsub t v) -> zf (- (m + 1)) (fadd v d) (m + 1).
  Proof.
    intros k m v t d Hv Ht Hk Hm Fd Vd. assert (b2r (fadd v d) = b2r (fadd v (fsub t v)) /\ fin (fadd v d)) as (Ev & Fa).
    { destruct Hv as (Fv & Hv), Ht as (Ft & Ht). rewrite opp_IZR in Hv, Ht. pose proof (IZR_le _ _ Hk). pose proof (IZR_le _ _ Hm).
      destruct (zf_sub (-2097152) 2097152 t v Ft Fv) as ((Fs & Hs) & _); [split; lia|simpl; lra|]. simpl in Hs.
      destruct (zf_add (-4194304) 4194304 v d Fv Fd) as ((F1 & _) & V1); [split; lia|rewrite Vd; simpl; lra|].
      destruct (zf_add (-4194304) 4194304 v _ Fv Fs) as (_ & V2); [split; lia|simpl; lra|]. rewrite V1, V2, Vd. auto. }
    assert (0 <= k) by (destruct Hv as (_ & Hv); rewrite opp_IZR in Hv; apply le_IZR; lra). assert (0 <= m) by (destruct Ht as (_ & Ht); rewrite opp_IZR in Ht; apply le_IZR; lra).
    pose proof (move_all (- k) k (- m) m v t Hv Ht ltac:(lia) ltac:(lia) ltac:(lia) ltac:(lia)) as (_ & B). split; [exact Fa|]. rewrite Ev. replace (- (m + 1)) with (- m - 1) by lia. exact B.
  Qed.

  Lemma sub_fin : forall k m (v t : f32), zf (- k) v k -> zf (- m) t m -> k <= 1048576 -> m <= 1048576 -> fin (fsub t v).
  Proof.
    intros k m v t (Fv & Hv) (Ft & Ht) Hk Hm. rewrite opp_IZR in Hv, Ht. pose proof (IZR_le _ _ Hk). pose proof (IZR_le _ _ Hm). apply (zf_sub (-2097152) 2097152); auto; [split; lia|simpl; lra].
  Qed.

  Lemma paint_to_ok : forall fuel (b : brush E) w g dt, aim g -> rested b -> Inv (w_surf w) ->
    exists r, paint_to L fuel b w g dt = Ok r /\ forall a b' w', r = Some (a, b', w') -> rested b' /\ Inv (w_surf w').
  Proof.
    intros fuel b w g dt A [Rd Pn Wh Pt] HI. unfold paint_to, paint_dabs. cbv zeta. destruct (count_dabs_to L b (g_x g) (g_y g) _) as [todo b1] eqn:Ec.
    destruct (count_states _ _ _ _ _ _ Ec) as (Os & K).
    destruct (dabs_ok fuel g (mkProgress b1 w None dt (st b STATE_PARTIAL_DABS) todo []) A) as (r & -> & Hr).
    { constructor; cbn [p_brush p_world p_moved p_todo p_painted p_left p_log].
      - apply (ready_keep b); auto; [eapply shape_os; [exact Os|apply Rd]| | |].
        + destruct Os as (-> & _). reflexivity.
        + destruct Os as (-> & _). apply Rd.
        + apply K. discriminate.
      - unfold pen_near. rewrite !K by discriminate. exact Pn.
      - exact HI.
      - exact Pt.
      - apply (count_upto L EM _ _ _ _ _ _ Ec).
      - left. unfold near_x. rewrite !K by discriminate. exact Wh. }
    cbn [obind]. destruct r as [p|]; [|eexists; split; [reflexivity|]; intros; discriminate]. destruct (Hr p eq_refl) as ([Rp Pp Ip (Fm & Hm) Ut Wp] & Pe). clear Hr.
    unfold pending in Pe. destruct (rest_small (p_moved p) (p_todo p) Fm Hm Ut Pe) as (Ft & Ht & Fs & Hs). destruct A as (Ax & Ay & Ap & Av).
    assert (near_x 331000 13 (p_brush p)) as (Zx & Zy & Zp).
    { destruct Wp as [(A & B & C)|(_ & Wp)]; [|exact Wp]. split; [eapply zf_weak; [exact A|lia|lia]|]. split; [eapply zf_weak; [exact B|lia|lia]|]. eapply zf_weak; [exact C|lia|lia]. }
    assert (zf (-2) (fadd (st (p_brush p) STATE_PRESSURE) (fsub (g_pressure g) (st (p_brush p) STATE_PRESSURE))) 2) as Zq.
    { eapply zf_weak; [apply (move_all 0 13 0 1); auto; lia|lia|lia]. }
    destruct (update_ok L EM (p_brush p) (last_step p g) Rp) as (b2 & Eu & Fit & Es & Er & Ex & Ey & Epr & Epd & (T & FT & Eax & Eay)).
    { cbn [last_step step_towards sp_dpressure]. eapply zf_weak; [exact Zq|lia|lia]. }
    { exact Av. }
    unfold paint_rest. rewrite Eu. cbn [obind]. destruct (stroke_split _ _ _ _ _) as [a b3] eqn:Esp. cbn [obind]. eexists. split; [reflexivity|]. intros a' b' w' H. injection H as _ <- <-. split; [|exact Ip].
    assert (exists t1 t2, b3 = with_times (set_st b2 STATE_PARTIAL_DABS (fadd (p_moved p) (p_todo p))) t1 t2) as (t1 & t2 & E3).
    { clear - Esp. unfold stroke_split in Esp. cbv zeta in Esp. destruct (match p_painted p with Some v => v | None => _ end); [injection Esp as _ <-; eauto|].
      match type of Esp with (if ?c then _ else _) = _ => destruct c end; injection Esp as _ <-; eauto. }
    clear Esp. subst b3. set (b3 := set_st b2 STATE_PARTIAL_DABS (fadd (p_moved p) (p_todo p))).
    assert (forall i, st (with_times b3 t1 t2) i = st b3 i) as Q by reflexivity.
    assert (forall i, i <> STATE_PARTIAL_DABS -> st b3 i = st b2 i) as K3' by (intros; apply st_set_other; auto).
    assert (zf (-110002) (st b2 STATE_X) 110002 /\ zf (-110002) (st b2 STATE_Y) 110002) as (Z2 & Z3).
    { rewrite Ex, Ey. split; [apply (move_full 331000 110001 (st (p_brush p) STATE_X) (g_x g))|apply (move_full 331000 110001 (st (p_brush p) STATE_Y) (g_y g))]; auto; try lia; cbn [last_step step_towards sp_dx sp_dy].
      - apply (sub_fin 331000 110001); auto; lia.
      - apply (sub_fin 331000 110001); auto; lia. }
    split.
    - apply (ready_keep b2); [apply Fit|split; apply shape_set; apply Fit|reflexivity|exact (proj1 (proj2 (proj2 (ft_ready _ Fit))))|rewrite Q; apply K3'; discriminate].
    - unfold pen_near. rewrite !Q, !K3' by discriminate. apply (pen_step (p_brush p) b2 (p_todo p) T); auto; [eapply zf_weak; [exact Z2|lia|lia]|eapply zf_weak; [exact Z3|lia|lia]|split; [exact Ft|simpl; exact Ht]].
    - unfold near_x. rewrite !Q, !K3' by discriminate. split; [exact Z2|]. split; [exact Z3|]. rewrite Epr. apply clamp_pressure; [lia|exact Zq].
    - rewrite Q. unfold b3. rewrite st_set_same by (first [vm_compute; lia|apply (ft_ready _ Fit)]). split; [exact Fs|exact Hs].
  Qed.

  Lemma filter_one : forall T t : f32, nonposf T -> fin (filter_fac (M := mix64) L T t : f32) /\ b2r (filter_fac (M := mix64) L T t : f32) = 1%R.
  Proof.
    intros T t (FT & HT). unfold filter_fac, exp_decay.
    change (@nar mix64) with f_of_d. change (@wid mix64) with d_of_f. change (@nsub (dbl mix64)) with dsub. change (@nofZ (dbl mix64) 1) with (d_of_Z 1).
    change (@nle (dbl mix64)) with dle. change (@dec mix64 1 1000) with (dlit 1 1000). change (@nofZ (sng mix64) 0) with (f_of_Z 0).
    destruct thousandth as (Fk & Hk). destruct (d_of_f_exact T FT) as (VT & GT). rewrite dle_spec, VT by auto.
    destruct (Rle_bool_spec (b2r T) (b2r (dlit 1 1000))) as [C|C]; [|exfalso; lra].
    destruct (zf_Z 0) as ((F0 & _) & V0); [lia|]. destruct (d_of_f_exact _ F0) as (W0 & G0). destruct (zd_Z 1) as ((G1 & _) & W1); [lia|].
    destruct (zd_sub 1 1 (d_of_Z 1) (d_of_f (f_of_Z 0)) G1 G0) as (Zs & _); [split; lia|rewrite W1, W0, V0; simpl; lra|].
    destruct (zf_nar 1 1 _ Zs) as ((F & H) & _); [split; lia|]. split; [exact F|simpl in H; lra].
  Qed.

  Lemma track_ok : forall (b : brush E) x y dt, rested b -> zf (-65536) x 65536 -> zf (-65536) y 65536 ->
    exists x' y' b', track L b x y dt = Ok (x', y', b') /\ zf (-110001) x' 110001 /\ zf (-110001) y' 110001 /\ rested b'.
  Proof.
    intros b x y dt R Hx Hy. pose proof (re_ready b R) as (Sh & Tn & _). assert (forall i P, In (i, P) base_ranges -> P (base b i)) as B by (intros; eapply tuned_base; eauto).
    assert (forall x1 y1 : f32, zf (-110000) x1 110000 -> zf (-110000) y1 110000 -> forall t : f32, let f := filter_fac (M := mix64) L (base b SET_SLOW_TRACKING) t in
      zf (-110001) (fadd (st b STATE_X) (fmul (fsub x1 (st b STATE_X)) f)) 110001 /\ zf (-110001) (fadd (st b STATE_Y) (fmul (fsub y1 (st b STATE_Y)) f)) 110001) as Last.
    { intros x1 y1 H1 H2 t f. destruct (filter_one (base b SET_SLOW_TRACKING) t (B SET_SLOW_TRACKING nonposf ltac:(cbn; auto 50))) as (Ff & Vf). fold f in Ff, Vf. clearbody f. change (car (sng mix64)) with f32 in f.
      destruct R as [_ _ (Zx & Zy & _) _].
      assert (forall v t : f32, zf (-110002) v 110002 -> zf (-110000) t 110000 -> zf (-110001) (fadd v (fmul (fsub t v) f)) 110001) as Q.
      { intros v t0 Hv Ht. destruct Hv as (Fv & Hv') eqn:Ev, Ht as (Ft & Ht') eqn:Et. clear Ev Et. simpl in Hv', Ht'.
        destruct (zf_sub (-2097152) 2097152 t0 v Ft Fv) as (Zs & _); [split; lia|simpl; lra|]. destruct (mul_one_r _ _ _ f Zs ltac:(split; lia) Ff Vf) as (Fm & Vm).
        apply (move_full 110002 110000 v t0); auto; try lia; split; auto. }
      split; apply Q; assumption. }
    unfold track. cbv zeta.
    match goal with |- context [obind ?m _] => assert (exists (x1 y1 : f32) (b1 : brush E), m = Ok (x1, y1, b1) /\ zf (-110000) x1 110000 /\ zf (-110000) y1 110000 /\ b_states b1 = b_states b /\ b_settings b1 = b_settings b /\ rested b1) as (x1 & y1 & b1 & Em & Z1 & Z2 & Est & Ese & R1) end.
    2:{ rewrite Em. cbn [obind]. eexists _, _, _. split; [reflexivity|]. unfold base, st. rewrite Est, Ese. fold (st b STATE_X) (st b STATE_Y) (base b SET_SLOW_TRACKING).
    change (@nadd (sng mix64)) with fadd. change (@nsub (sng mix64)) with fsub. change (@nmul (sng mix64)) with fmul.
    split; [apply (Last x1 y1 Z1 Z2)|]. split; [apply (Last x1 y1 Z1 Z2)|exact R1]. }
    { assert (zf (-110000) x 110000) as Hx' by (eapply zf_weak; [exact Hx|lia|lia]). assert (zf (-110000) y 110000) as Hy' by (eapply zf_weak; [exact Hy|lia|lia]).
      destruct (truthy _); [|exists x, y, b; auto 9]. 
      destruct (base_radius_ok L EM _ (B SET_RADIUS_LOGARITHMIC (in_range (-6) 6) ltac:(cbn; auto 50))) as (Fe & He). destruct (B SET_TRACKING_NOISE (in_range (-1000) 12) ltac:(cbn; auto 50)) as (Fn & Hn). simpl in He, Hn.
      change (@nmul (sng mix64)) with fmul. change (@nlt (dbl mix64)) with dlt. change (@wid mix64) with d_of_f. change (@dec mix64) with dlit. change (@nadd (sng mix64)) with fadd.
      destruct (zf_mul (-729000) 8748 _ _ Fe Fn) as ((Fm & Hm) & _); [split; lia|simpl; nra|]. set (no := fmul _ _) in *. clearbody no. simpl in Hm.
      destruct (dlt (dlit 1 1000) (d_of_f no)) eqn:Big; [|exists x, y, b; auto 9].
      destruct thousandth as (Fk & Hk). destruct (d_of_f_exact no Fm) as (Vn & Gn). rewrite dlt_spec, Vn in Big by auto. destruct (Rlt_bool_spec (b2r (dlit 1 1000)) (b2r no)) as [P|P]; [|discriminate Big]. clear Big.
      destruct (gauss_ok E FR (b_rng b)) as (r1 & g1 & Eg1 & (F1 & H1)). destruct (gauss_ok E FR g1) as (r2 & g2 & Eg2 & (F2 & H2)). cbn [with_skip b_rng]. rewrite Eg1. cbn [obind]. rewrite Eg2. cbn [obind]. simpl in H1, H2.
      destruct (zf_mul (-43740) 43740 no r1 Fm F1) as ((G1 & K1) & _); [split; lia|simpl; nra|]. destruct (zf_mul (-43740) 43740 no r2 Fm F2) as ((G2 & K2) & _); [split; lia|simpl; nra|]. simpl in K1, K2.
      destruct Hx as (Fx & Hx), Hy as (Fy & Hy). simpl in Hx, Hy.
      eexists _, _, _. split; [reflexivity|]. split; [apply zf_add; auto; [split; lia|simpl; lra]|]. split; [apply zf_add; auto; [split; lia|simpl; lra]|]. split; [reflexivity|]. split; [reflexivity|].
      destruct R as [(S1 & S2 & S3 & S4) Pn Wh Pt]. split; [split; [exact S1|split; [exact S2|split; [exact S3|exact S4]]]|exact Pn|exact Wh|exact Pt]. }
  Qed.

  Lemma reset_partial : forall b b' : brush E, brush_reset b = Ok b' -> st b' STATE_PARTIAL_DABS = f_of_Z 0 /\ st b' STATE_FLIP = f_of_Z (-1).
  Proof.
    intros b b' H. unfold brush_reset in H. cbv zeta in H. cbn [with_states with_skip b_buckets b_minb b_maxb] in H. destruct (b_buckets b) as [mem|].
    - destruct (negb _); [|apply Ok_inj in H; subst b'; split; reflexivity]. apply obind_ok in H. destruct H as (mem' & _ & H). apply Ok_inj in H. subst b'. split; reflexivity.
    - apply Ok_inj in H. subst b'. split; reflexivity.
  Qed.
  Lemma do_reset_ok : forall (b : brush E) x y pr, ready b -> zf (-110001) x 110001 -> zf (-110001) y 110001 -> zf 0 pr 1 -> exists b', do_reset b x y pr = Ok b' /\ rested b'.
  Proof.
    intros b x y pr (Sh & Tn & Rn & Fl) Zx Zy Zp. destruct (reset_ok (with_reset b false)) as (b1 & E1 & A & B & C & D); [apply Sh|].
    destruct (reset_partial _ _ E1) as (P0 & F0). unfold do_reset. rewrite E1. cbn [obind]. destruct (FR (b_rng b1)) as (r & g & -> & Zr). cbn [obind]. cbv zeta.
    eexists. split; [reflexivity|]. set (c := with_random (with_rng b1 g) r).
    assert (shape c) as Shc. { destruct Sh as (_ & S2 & S3 & S4). split; [exact A|]. unfold c. cbn. rewrite C, D. cbn. auto. }
    assert (forall i, st c i = st b1 i) as Q by reflexivity.
    set (c1 := set_st c STATE_X x). set (c2 := set_st c1 STATE_Y y). set (c3 := set_st c2 STATE_PRESSURE pr). set (c4 := set_st c3 STATE_ACTUAL_X (st c3 STATE_X)). set (c5 := set_st c4 STATE_ACTUAL_Y (st c4 STATE_Y)).
    assert (has_states c) as H0 by apply Shc. assert (has_states c1) as H1 by (apply has_set; exact H0). assert (has_states c2) as H2 by (apply has_set; exact H1). assert (has_states c3) as H3 by (apply has_set; exact H2). assert (has_states c4) as H4 by (apply has_set; exact H3). assert (has_states c5) as H5 by (apply has_set; exact H4).
    assert (st c3 STATE_X = x) as X3. { unfold c3, c2. rewrite !st_set_other by discriminate. apply st_set_same; [exact H0|vm_compute; lia]. }
    assert (st c4 STATE_Y = y) as Y4. { unfold c4, c3. rewrite !st_set_other by discriminate. apply st_set_same; [exact H1|vm_compute; lia]. }
    set (c6 := set_st c5 STATE_STROKE _).
    assert (st c6 STATE_X = x) as X6. { unfold c6, c5, c4. rewrite !st_set_other by discriminate. exact X3. }
    assert (st c6 STATE_Y = y) as Y6. { unfold c6, c5. rewrite !st_set_other by discriminate. exact Y4. }
    assert (st c6 STATE_PRESSURE = pr) as P6. { unfold c6, c5, c4. rewrite !st_set_other by discriminate. apply st_set_same; [exact H2|vm_compute; lia]. }
    assert (st c6 STATE_ACTUAL_X = x) as AX6. { unfold c6, c5. rewrite !st_set_other by discriminate. rewrite <- X3. apply st_set_same; [exact H3|vm_compute; lia]. }
    assert (st c6 STATE_ACTUAL_Y = y) as AY6. { unfold c6. rewrite !st_set_other by discriminate. rewrite <- Y4. apply st_set_same; [exact H4|vm_compute; lia]. }
    assert (st c6 STATE_PARTIAL_DABS = f_of_Z 0) as PD6. { unfold c6, c5, c4, c3, c2, c1. rewrite !st_set_other by discriminate. rewrite Q. exact P0. }
    assert (st c6 STATE_FLIP = f_of_Z (-1)) as FL6. { unfold c6, c5, c4, c3, c2, c1. rewrite !st_set_other by discriminate. rewrite Q. exact F0. }
    assert (b_settings c6 = b_settings b) as S6 by exact C.
    assert (shape c6) as Sh6 by (unfold c6, c5, c4, c3, c2, c1; repeat apply shape_set; exact Shc).
    assert (b_random c6 = r) as R6 by reflexivity.
    clearbody c6. split.
    - split; [exact Sh6|]. split; [rewrite S6; exact Tn|]. split; [rewrite R6; exact Zr|]. right. exact FL6.
    - unfold pen_near, K3. rewrite AX6, AY6. split; (eapply zf_weak; [eassumption|lia|lia]).
    - unfold near_x. rewrite X6, Y6, P6. split; [eapply zf_weak; [exact Zx|lia|lia]|]. split; [eapply zf_weak; [exact Zy|lia|lia]|]. eapply zf_weak; [exact Zp|lia|lia].
    - rewrite PD6. destruct (zf_Z 0) as ((F & _) & V); [lia|]. split; [exact F|]. rewrite V. simpl. lra.
  Qed.

  (** an event after the sanity checks *)
  Definition clean (e : event mix64) : Prop :=
    zf (-65536) (ev_x e) 65536 /\ zf (-65536) (ev_y e) 65536 /\ zf 0 (ev_pressure e) 1 /\ zf (-100) (ev_viewrotation e) 100.
  Definition goes_on (r : option (bool * brush E * world E)) : Prop :=
    forall a b' w', r = Some (a, b', w') -> rested b' /\ Inv (w_surf w').

  Lemma stroke_rest_ok : forall n (b : brush E) w t e, rested b -> Inv (w_surf w) -> clean e -> exists r, stroke_rest L n b w t e = Ok r /\ goes_on r.
  Proof.
    intros n b w t e R HI (Zx & Zy & Zp & Zv). unfold stroke_rest. destruct (skip_input _ _ _ _ _) as [b1 go] eqn:E1. apply skip_fields in E1.
    assert (rested b1) as R1.
    { rewrite E1. destruct R as [(S1 & S2 & S3 & S4) Pn Wh Pt]. split; [split; [exact S1|split; [exact S2|split; [exact S3|exact S4]]]|exact Pn|exact Wh|exact Pt]. }
    clear E1 R. destruct go as [dt|]; [|eexists; split; [reflexivity|]; intros ? ? ? H; injection H as _ <- <-; auto].
    destruct (track_ok b1 (ev_x e) (ev_y e) dt R1 Zx Zy) as (x & y & b2 & -> & Zx' & Zy' & R2). cbn [obind].
    match goal with |- context [if ?c then _ else _] => destruct c end.
    - destruct (do_reset_ok b2 x y (ev_pressure e) (re_ready _ R2) Zx' Zy' Zp) as (b3 & -> & R3). cbn [obind]. eexists. split; [reflexivity|]. intros ? ? ? H; injection H as _ <- <-; auto.
    - apply paint_to_ok; auto. split; [exact Zx'|]. split; [exact Zy'|]. split; [exact Zp|exact Zv].
  Qed.

  (** *** The events *)
  Definition sensible (e : event mix64) : Prop :=
    zf (-65536) (ev_x e) 65536 /\ zf (-65536) (ev_y e) 65536 /\
    (fin (ev_pressure e : f32) /\ (b2r (ev_pressure e : f32) <= 1)%R) /\ zf (-100) (ev_viewrotation e) 100.
  Definition garbage (e : event mix64) : Prop :=
    ~ (fin (ev_x e : f32) /\ fin (ev_y e : f32) /\ (Rabs (b2r (ev_x e : f32)) <= 10000000000)%R /\ (Rabs (b2r (ev_y e : f32)) <= 10000000000)%R).
  Definition event_ok (e : event mix64) : Prop :=
    is_nan (ev_xtilt e : f32) = false /\ is_nan (ev_ytilt e : f32) = false /\ (sensible e \/ garbage e).

  Lemma sanitise_form : forall (e e' : event mix64) t, sanitise L e = Ok (t, e') ->
    (ev_x e' = f_of_Z 0 /\ ev_y e' = f_of_Z 0 /\ ev_pressure e' = f_of_Z 0 /\ ev_viewrotation e' = f_of_Z 0) \/
    (ev_x e' = ev_x e /\ ev_y e' = ev_y e /\ ev_pressure e' = (if dle (d_of_f (ev_pressure e)) (d_of_Z 0) then f_of_Z 0 else ev_pressure e) /\ ev_viewrotation e' = ev_viewrotation e).
  Proof.
    intros e e' t H. unfold sanitise in H. apply obind_ok in H. destruct H as (t' & _ & H). cbv zeta in H.
    match type of H with (if ?c then _ else _) = _ => destruct c; [|discriminate H] end. apply Ok_inj in H. injection H as _ H. subst e'.
    match goal with |- context [if ?c then mkEvent _ _ _ _ _ _ _ _ _ _ else _] => destruct c end; [left|right]; repeat split; reflexivity.
  Qed.
  Lemma sanitise_clean : forall e, event_ok e -> exists t e', sanitise L e = Ok (t, e') /\ clean e'.
  Proof.
    intros e (Nx & Ny & H). destruct (sanitise_iff L (em_c L EM) e Nx Ny) as (_ & S).
    assert (~ far (ev_x e) (ev_y e)) as Nf.
    { intros (Fx & Fy & B1 & B2 & B3). destruct H as [((_ & Hx) & (_ & Hy) & _)|H]; [|apply H; auto]. simpl in Hx, Hy.
      assert (Rabs (b2r (ev_x e : f32)) <= 65536)%R by (apply Rabs_le; exact Hx). assert (Rabs (b2r (ev_y e : f32)) <= 65536)%R by (apply Rabs_le; exact Hy). destruct B3; lra. }
    destruct (S Nf) as (t & e' & Es & (Fx & Fy & B1 & B2)). exists t, e'. split; [exact Es|].
    assert (forall n, 0 <= n <= 65536 -> zf (- n) (f_of_Z 0) n) as Z0 by (intros n Hn; eapply zf_weak; [apply zf_Z; lia|lia|lia]).
    destruct (sanitise_form _ _ _ Es) as [(A1 & A2 & A3 & A4)|(A1 & A2 & A3 & A4)]; unfold clean; rewrite A1, A2, A3, A4 in *.
    - split; [apply (Z0 65536); lia|]. split; [apply (Z0 65536); lia|]. split; [eapply zf_weak; [apply zf_Z; lia|lia|lia]|apply (Z0 100); lia].
    - destruct H as [(Sx & Sy & (Fp & Hp) & Sv)|H].
      + split; [exact Sx|]. split; [exact Sy|]. split; [|exact Sv]. destruct (d_of_f_exact _ Fp) as (V & G). destruct (zd_Z 0) as ((G0 & _) & W0); [lia|]. rewrite dle_spec, V, W0 by auto.
        destruct (Rle_bool_spec (b2r (ev_pressure e : f32)) 0) as [K|K]; [eapply zf_weak; [apply zf_Z; lia|lia|lia]|split; [exact Fp|simpl; simpl in K; lra]].
      + exfalso. apply H. split; [exact Fx|]. split; [exact Fy|]. split; lra.
  Qed.

  Theorem stroke_to_ok : forall n (b : brush E) w e, rested b -> Inv (w_surf w) -> event_ok e -> exists r, stroke_to L n b w e = Ok r /\ goes_on r.
  Proof.
    intros n b w e R HI He. destruct (sanitise_clean e He) as (t & e1 & Es & (Zx & Zy & Zp & Zv)). unfold stroke_to. rewrite Es. cbn [obind]. clear Es.
    match goal with |- context [if ?c then _ else _] => destruct c end; [|apply stroke_rest_ok; auto; split; [exact Zx|split; [exact Zy|split; [exact Zp|exact Zv]]]].
    destruct (sanitise_clean (silent_event e1)) as (t2 & e2 & -> & C2).
    { split; [reflexivity|]. split; [reflexivity|]. left. split; [exact Zx|]. split; [exact Zy|]. split; [|exact Zv]. destruct (zf_Z 0) as ((F & _) & V); [lia|]. split; [exact F|]. cbn [silent_event ev_pressure]. change (@nofZ (sng mix64)) with f_of_Z. rewrite V. simpl. lra. }
    cbn [obind]. destruct (stroke_rest_ok n b w t2 e2 R HI C2) as (r & -> & G). cbn [obind]. destruct r as [[[a b1] w1]|]; [|eexists; split; [reflexivity|]; intros ? ? ? H; discriminate H].
    destruct (G _ _ _ eq_refl) as (R1 & I1). apply stroke_rest_ok; auto. split; [exact Zx|]. split; [exact Zy|]. split; [exact Zp|exact Zv].
  Qed.
End Easel.
