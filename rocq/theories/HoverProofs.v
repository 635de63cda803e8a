(** Proofs for P_Hover.v: the pressure between two events without pressure, and
    the opacity of the dabs on the way. *)
From Verif Require Import Base F32 F32Proofs Arith Color Mapping P_Mapping Settings Spectral Brush BrushProofs BrushInst ReturnProofs StepFacts DabFrame DabSeen
  EaselNum EaselDab EaselStep EaselRun P_Reset P_Limits.
From Coq Require Import Reals Lra Floats.SpecFloat.
From Flocq Require Import Core.Core IEEE754.BinarySingleNaN.
Local Open Scope Z_scope.

(** *** Numbers *)
Local Transparent fmul fadd fsub fdiv.
Lemma zero_case : forall v : f32, zero v -> exists s, v = B754_zero s.
Proof. intros [s|[|]| |[|] m e p] H; try discriminate H. eauto. Qed.
Lemma zero_is : forall s, zero (B754_zero s).
Proof. intros [|]; reflexivity. Qed.
Lemma zero_ex : forall v : f32, (exists s, v = B754_zero s) -> zero v.
Proof. intros v (s & ->). apply zero_is. Qed.
Lemma zero_val : forall v : f32, fin v -> b2r v = 0%R -> zero v.
Proof. intros v F V. unfold zero. rewrite feq_spec by (auto; reflexivity). rewrite V. apply Req_bool_true. reflexivity. Qed.
Lemma fin_times_zero : forall x z : f32, fin x -> zero z -> zero (fmul x z).
Proof. intros x z F Z. destruct (zero_case z Z) as (s & ->). destruct x as [q|q| |q m e p]; try discriminate F; apply zero_ex; eexists; reflexivity. Qed.
Lemma zero_times_fin : forall x z : f32, fin x -> zero z -> zero (fmul z x).
Proof. intros x z F Z. destruct (zero_case z Z) as (s & ->). destruct x as [q|q| |q m e p]; try discriminate F; apply zero_ex; eexists; reflexivity. Qed.
Lemma zero_plus : forall x y : f32, zero x -> zero y -> zero (fadd x y).
Proof. intros x y X Y. destruct (zero_case x X) as (s & ->). destruct (zero_case y Y) as (q & ->). destruct s, q; reflexivity. Qed.
Lemma zero_minus : forall x y : f32, zero x -> zero y -> zero (fsub x y).
Proof. intros x y X Y. destruct (zero_case x X) as (s & ->). destruct (zero_case y Y) as (q & ->). destruct s, q; reflexivity. Qed.
Lemma minus_zero : forall x z : f32, fin x -> flt f0 x = true -> zero z -> fsub x z = x.
Proof. intros x z F P Z. destruct (zero_case z Z) as (s & ->). destruct x as [[|]|q| |q m e p]; try discriminate F; try discriminate P. reflexivity. Qed.
Lemma zero_over : forall x z : f32, fin x -> flt f0 x = true -> zero z -> zero (fdiv z x).
Proof. intros x z F P Z. destruct (zero_case z Z) as (s & ->). destruct x as [[|]|q| |q m e p]; try discriminate F; try discriminate P. apply zero_ex. eexists. reflexivity. Qed.
Lemma square_up : forall x : f32, fmul x x <> B754_infinity true.
Proof.
  intros x H. destruct x as [s|s| |s m e p]; try (destruct s; discriminate H); [discriminate H|].
  pose proof (Bmult_correct 24 128 prec24 emax24 mode_NE (B754_finite s m e p) (B754_finite s m e p)) as C. change (Bmult mode_NE) with fmul in C. rewrite H in C.
  match type of C with if ?c then _ else _ => destruct c end.
  - destruct C as (_ & C & _). discriminate C.
  - cbn [Bsign] in C. rewrite xorb_nilpotent in C. discriminate C.
Qed.

(** the count of dabs carried over is below one *)
Definition below (m : f32) : Prop := dle (d_of_Z 1) (d_of_f m) = false.
Lemma big_one : fin (d_of_Z 1) /\ b2r (d_of_Z 1) = 1%R.
Proof. destruct (d_of_Z_exact 1) as (A & B); [lia|]. auto. Qed.
Lemma below_val : forall m : f32, fin m -> below m -> (b2r m < 1)%R.
Proof.
  intros m F H. unfold below in H. destruct big_one as (F1 & V1). destruct (d_of_f_exact m F) as (Vm & Fm). rewrite dle_spec, V1, Vm in H by auto.
  destruct (Rle_bool_spec 1 (b2r m)); [discriminate H|assumption].
Qed.
Lemma below_zero : forall z : f32, zero z -> below z.
Proof. intros z H. destruct (zero_case z H) as ([|] & ->); reflexivity. Qed.
Local Opaque dle.
Lemma fraction : forall moved todo : f32, below moved -> dle (d_of_Z 1) (d_of_f (fadd moved todo)) = true ->
  exists ddab m' : f32, (if flt (f_of_Z 0) moved then (f_of_d (dsub (d_of_Z 1) (d_of_f moved)), f_of_Z 0) else (f_of_Z 1, moved)) = (ddab, m') /\
    below m' /\ fin (fdiv ddab todo) /\ (0 <= b2r (fdiv ddab todo) <= 1025 / 512)%R.
Proof.
  intros m t B P. destruct (f_of_Z_exact 0) as (V0 & F0); [lia|]. destruct (f_of_Z_exact 1) as (V1 & F1); [lia|].
  assert (fin m /\ is_nan t = false /\ t <> B754_infinity true) as (Fm & Nt & It).
  { Local Transparent dle. unfold below in B. destruct m as [s|[|]| |s mm e p]; try discriminate B; try (destruct t as [q|[|]| |q tm te tp]; discriminate P).
    - split; [reflexivity|]. destruct t as [q|[|]| |q tm te tp]; try (split; [reflexivity|discriminate]); discriminate P.
    - split; [reflexivity|]. destruct t as [q|[|]| |q tm te tp]; try (split; [reflexivity|discriminate]); discriminate P. Local Opaque dle. }
  pose proof (below_val m Fm B) as Bm.
  assert ((0 <= b2r m)%R -> upto t -> exists ddab m' : f32, (if flt (f_of_Z 0) m then (f_of_d (dsub (d_of_Z 1) (d_of_f m)), f_of_Z 0) else (f_of_Z 1, m)) = (ddab, m') /\
    below m' /\ fin (fdiv ddab t) /\ (0 <= b2r (fdiv ddab t) <= 1025 / 512)%R) as Up.
  { intros Hm Ht. destruct (frac_ok m t Fm (conj Hm Bm) Ht P) as (dd & m' & Eq & _ & Fm' & Vm' & Ff & Hf & _). exists dd, m'. split; [exact Eq|]. split; [apply below_zero, zero_val; auto|]. auto. }
  destruct (Rle_lt_dec 0 (b2r m)) as [Hm|Hm].
  - apply Up; [exact Hm|]. destruct t as [q|[|]| |q tm te tp]; try discriminate Nt; [right; split; [reflexivity|cbn; lra]|destruct (It eq_refl)|left; reflexivity|].
    right. split; [reflexivity|]. apply Rnot_lt_le. intros Neg. set (t := B754_finite q tm te tp) in *.
    pose proof big127 as BB. assert (q = true) as Q. { destruct q; [reflexivity|]. exfalso. assert (0 <= b2r t)%R; [|lra]. unfold t. cbn. apply F2R_ge_0. cbn. lia. }
    pose proof (Bplus_correct 24 128 prec24 emax24 mode_NE m t Fm eq_refl) as C. change (Bplus mode_NE) with fadd in C.
    destruct big_one as (G1 & W1).
    match type of C with if ?c then _ else _ => destruct c end.
    + destruct C as (Va & Fa & _). destruct (d_of_f_exact (fadd m t) Fa) as (Vd & Fd). rewrite dle_spec, W1, Vd in P by auto. 
      assert (b2r (fadd m t) <= b2r m)%R as Le. { change (B2R (fadd m t)) with (b2r (fadd m t)) in Va. rewrite Va. apply rnd32_le_r; [apply rep32_b2r|]. change (b2r m + b2r t <= b2r m)%R. lra. }
      destruct (Rle_bool_spec 1 (b2r (fadd m t))); [lra|discriminate P].
    + destruct C as (C & Sg). unfold t in Sg. cbn [Bsign] in Sg. rewrite Q in Sg. rewrite Sg in C. cbn in C. destruct (fadd m t) as [z|z| |z a b c]; try discriminate C. injection C as ->. Local Transparent dle. discriminate P. Local Opaque dle.
  - rewrite flt_spec, V0 by auto. rewrite Rlt_bool_false by lra. exists (f_of_Z 1), m. split; [reflexivity|]. split; [exact B|].
    destruct t as [q|[|]| |q tm te tp]; try discriminate Nt; [|destruct (It eq_refl)| |].
    + exfalso. destruct big_one as (G1 & W1). destruct m as [s|s| |s mm e p]; try discriminate Fm; [cbn in Hm; lra|]. change (fadd (B754_finite s mm e p) (B754_zero q)) with (B754_finite s mm e p : f32) in P. unfold below in B. congruence.
    + assert (exists s, fdiv (f_of_Z 1) (B754_infinity false) = B754_zero s) as (s & ->).
      { clear. Local Transparent fdiv. generalize (f_of_Z_exact 1 ltac:(lia)). intros (_ & F). destruct (f_of_Z 1) as [s|s| |s mm ee pp]; try discriminate F; eexists; reflexivity. }
      split; [reflexivity|]. cbn. lra.
    + Local Opaque fdiv. set (t := B754_finite q tm te tp : f32) in *. assert (/ 2 <= b2r t)%R as Ht.
      { apply Rnot_lt_le. intros Small. destruct big_one as (G1 & W1).
        pose proof (Bplus_correct 24 128 prec24 emax24 mode_NE m t Fm eq_refl) as C. change (Bplus mode_NE) with fadd in C.
        match type of C with if ?c then _ else _ => destruct c end.
        - destruct C as (Va & Fa & _). destruct (d_of_f_exact (fadd m t) Fa) as (Vd & Fd). rewrite dle_spec, W1, Vd in P by auto.
          assert (b2r (fadd m t) <= / 2)%R as Le. { change (B2R (fadd m t)) with (b2r (fadd m t)) in Va. rewrite Va. apply rnd32_le_r; [|change (b2r m + b2r t <= / 2)%R; lra].
            replace (/ 2)%R with (IZR 1 * bpow radix2 (-1))%R by (change (bpow radix2 (-1)) with (/ 2)%R; lra). apply rep32_scaled; lia. }
          destruct (Rle_bool_spec 1 (b2r (fadd m t))); [lra|discriminate P].
        - destruct C as (C & Sg). assert (Bsign m = true) as Q. { destruct m as [s|s| |s mm e p]; try discriminate Fm; [cbn in Hm; lra|]. destruct s; [reflexivity|]. exfalso. apply (Rlt_not_le _ _ Hm). apply F2R_ge_0. cbn. lia. }
          rewrite Q in C. cbn in C. destruct (fadd m t) as [z|z| |z a b c]; try discriminate C. injection C as ->. Local Transparent dle. discriminate P. Local Opaque dle. }
      assert (0 <= 1 / b2r t <= 2)%R as Hd.
      { assert (0 < b2r t)%R by lra. split; [apply Rlt_le, Rdiv_lt_0_compat; lra|]. apply Rmult_le_reg_r with (b2r t); [lra|]. unfold Rdiv. rewrite Rmult_assoc, Rinv_l; lra. }
      pose proof big127 as BB. destruct (fdiv_spec (f_of_Z 1) t F1) as (Vq & Fq); [lra|rewrite V1; apply Rabs_le; lra|]. split; [exact Fq|]. rewrite Vq, V1.
      split; [apply rnd32_ge_r; [apply (rep32_IZR 0); lia|lra]|]. apply Rle_trans with 2%R; [apply rnd32_le_r; [apply (rep32_IZR 2); lia|lra]|lra].
Qed.
Local Opaque fmul fadd fsub fdiv.

(** what a step makes of the pressure; [z]: the pressure of the event *)
Definition next_pressure (q : f32) : f32 := if dle (d_of_f q) (d_of_Z 0) then f_of_Z 0 else q.
(** a pressure of the brush while no event has more than one; of an event *)
Definition calm (q : f32) : Prop := zf 0 q 4.
Definition soft (z : f32) : Prop := zf 0 z 1.
(** pressures [T] of events keep the pressure of the brush in [Q] *)
Definition settles (T Q : f32 -> Prop) : Prop :=
  forall fr q z : f32, fin fr -> (0 <= b2r fr <= 1025 / 512)%R -> T z -> Q q -> Q (next_pressure (fadd q (fmul fr (fsub z q)))).
Definition arrives (T Q Q' : f32 -> Prop) : Prop := forall q z : f32, T z -> Q q -> Q' (next_pressure (fadd q (fsub z q))).
Lemma next_zero : forall q, zero q -> zero (next_pressure q).
Proof. intros q H. unfold next_pressure. destruct (dle _ _); [reflexivity|exact H]. Qed.
Lemma next_calm : forall q : f32, fin q -> (b2r q <= 4)%R -> calm (next_pressure q).
Proof.
  intros q F H. unfold next_pressure. destruct (d_of_f_exact _ F) as (Vd & Fd). destruct (d_of_Z_exact 0) as (W0 & G0); [lia|]. rewrite dle_spec, Vd, W0 by auto.
  destruct (Rle_bool_spec (b2r q) 0) as [C|C].
  - destruct (f_of_Z_exact 0) as (V0 & F0); [lia|]. split; [exact F0|]. rewrite V0. lra.
  - split; [exact F|lra].
Qed.
Lemma zero_fin : forall z, zero z -> fin z /\ b2r z = 0%R.
Proof. intros z H. destruct (zero_case z H) as (s & ->). split; reflexivity. Qed.
Lemma zero_soft : forall z, zero z -> soft z.
Proof. intros z H. destruct (zero_fin z H) as (F & V). split; [exact F|]. rewrite V. lra. Qed.
Lemma soft_calm : forall z, soft z -> calm z.
Proof. intros z (F & H). split; [exact F|]. lra. Qed.
Lemma zero_settles : settles zero zero.
Proof. intros fr q z F _ Z H. apply next_zero, zero_plus; [exact H|]. apply fin_times_zero; [exact F|]. apply zero_minus; auto. Qed.
Lemma zero_arrives : arrives zero zero zero.
Proof. intros q z Z H. apply next_zero, zero_plus; [exact H|]. apply zero_minus; auto. Qed.
Lemma big10 : (100 <= bpow radix2 127)%R.
Proof. apply Rle_trans with (bpow radix2 7); [change (bpow radix2 7) with 128%R; lra|apply bpow_le; lia]. Qed.
Lemma difference : forall q z : f32, soft z -> calm q -> fin (fsub z q) /\ b2r (fsub z q) = rnd32 (b2r z - b2r q) /\ (-4 <= b2r (fsub z q) <= 1)%R /\ ((b2r z <= b2r q)%R -> (b2r (fsub z q) <= 0)%R).
Proof.
  intros q z (Fz & Hz) (Fq & Hq). pose proof big10 as B. destruct (fsub_spec z q Fz Fq) as (Vs & Fs). { apply Rabs_le. lra. }
  split; [exact Fs|]. split; [exact Vs|]. rewrite Vs. split; [split|intros D].
  - apply rnd32_ge_r; [apply (rep32_IZR (-4)); lia|lra].
  - apply rnd32_le_r; [apply (rep32_IZR 1); lia|lra].
  - apply rnd32_le_r; [apply (rep32_IZR 0); lia|lra].
Qed.
Lemma calm_settles : settles soft calm.
Proof.
  intros fr q z F Hf Z H. destruct (difference q z Z H) as (Fs & _ & Hs & Hn). destruct Z as (Fz & Hz). destruct H as (Fq & Hq). pose proof big10 as B.
  set (s := fsub z q) in *. clearbody s.
  assert (b2r fr * (-4) <= b2r fr * b2r s)%R as Hp1 by (apply Rmult_le_compat_l; lra). assert (b2r fr * b2r s <= b2r fr * 1)%R as Hp2 by (apply Rmult_le_compat_l; lra). assert ((b2r z <= b2r q)%R -> (b2r fr * b2r s <= 0)%R) as Hn' by (intros D; specialize (Hn D); rewrite <- (Rmult_0_r (b2r fr)); apply Rmult_le_compat_l; lra).
  destruct (fmul_spec fr s F Fs) as (Vm & Fm). { apply Rabs_le. lra. }
  assert (-9 <= b2r (fmul fr s) <= 3)%R as Hm. { rewrite Vm. split; [apply rnd32_ge_r; [apply (rep32_IZR (-9)); lia|lra]|apply rnd32_le_r; [apply (rep32_IZR 3); lia|lra]]. }
  assert ((b2r z <= b2r q)%R -> (b2r (fmul fr s) <= 0)%R) as Hm'. { intros D. rewrite Vm. apply rnd32_le_r; [apply (rep32_IZR 0); lia|auto]. }
  destruct (fadd_spec q (fmul fr s) Fq Fm) as (Va & Fa). { apply Rabs_le. lra. }
  apply next_calm; [exact Fa|]. rewrite Va. apply rnd32_le_r; [apply (rep32_IZR 4); lia|]. destruct (Rle_lt_dec (b2r z) (b2r q)) as [D|D]; [specialize (Hm' D); lra|lra].
Qed.
Lemma calm_arrives : arrives soft calm calm.
Proof.
  intros q z Z H. destruct (difference q z Z H) as (Fs & _ & Hs & Hn). destruct Z as (Fz & Hz). destruct H as (Fq & Hq). pose proof big10 as B.
  set (s := fsub z q) in *. clearbody s. destruct (fadd_spec q s Fq Fs) as (Va & Fa). { apply Rabs_le. lra. }
  apply next_calm; [exact Fa|]. rewrite Va. apply rnd32_le_r; [apply (rep32_IZR 4); lia|]. destruct (Rle_lt_dec (b2r z) (b2r q)) as [D|D]; [specialize (Hn D); lra|lra].
Qed.
Lemma lifted_arrives : arrives zero calm zero.
Proof.
  intros q z Z H. destruct (difference q z (zero_soft z Z) H) as (Fs & Vs & _). destruct (zero_fin z Z) as (Fz & Vz). destruct H as (Fq & Hq). apply next_zero.
  assert (b2r (fsub z q) = - b2r q)%R as V. { rewrite Vs, Vz. replace (0 - b2r q)%R with (- b2r q)%R by lra. apply rnd32_id. apply rep32_opp, rep32_b2r. }
  destruct (fadd_spec q (fsub z q) Fq Fs) as (Va & Fa). { rewrite V, Rplus_opp_r, Rabs_R0. apply bpow_ge_0. }
  apply zero_val; [exact Fa|]. rewrite Va, V, Rplus_opp_r. apply rnd32_id. apply (rep32_IZR 0). lia.
Qed.

(** *** The brush *)
Section Hover.
  Context (L : mathlib mix64) {E : env mix64}.
  Notation brush := (brush E).
  Notation world := (world E).

  (** where the opacity of a dab comes from *)
  Definition inked (b : brush) (d : dab mix64) : Prop :=
    exists g r0 b2, dab_size L (with_rng b g) (dab_opacity L b) = Ok (r0, dab_opaque d, b2).
  Lemma prepare_inked : forall (b : brush) w lin r b' w', prepare_and_draw_dab L b w lin = Ok (r, b', w') ->
    exists ds, drew (w_surf w) ds (w_surf w') /\ Forall (inked b) ds.
  Proof.
    intros b w lin r b' w' H. unfold prepare_and_draw_dab in H. cbv zeta in H.
    apply obind_ok in H. destruct H as (((x, y), b1) & E1 & H). destruct (position_rng _ _ _ _ _ E1) as (g1 & ->). clear E1.
    apply obind_ok in H. destruct H as (((rad, op), b2) & E2 & H).
    apply obind_ok in H. destruct H as (c & _ & H).
    apply obind_ok in H. destruct H as (((early, b3), w3) & E3 & H).
    assert (D3 : drew (w_surf w) [] (w_surf w3)).
    { clear H E2. match type of E3 with (if ?c then _ else _) = _ => destruct c end.
      - apply obind_ok in E3. destruct E3 as ((pl, b4) & Ef & E3). apply obind_ok in E3. destruct E3 as (px & _ & E3).
        apply obind_ok in E3. destruct E3 as (py & _ & E3). apply obind_ok in E3. destruct E3 as (k & _ & E3).
        apply obind_ok in E3. destruct E3 as (((ea, k'), w4) & Es & E3). apply obind_ok in E3. destruct E3 as (b5 & Ew & E3).
        injection E3 as _ _ <-. eapply smudge_drew; exact Es.
      - injection E3 as _ _ <-. apply drew_none. }
    clear E3. destruct early. { injection H as _ _ <-. exists []. split; [exact D3|constructor]. }
    apply obind_ok in H. destruct H as ((((al, c'), b4), w4) & E4 & H).
    assert (W4 : w_surf w4 = w_surf w3).
    { clear H E2. match type of E4 with (if ?c then _ else _) = _ => destruct c end.
      - apply obind_ok in E4. destruct E4 as ((pl, b5) & Ef & E4). apply obind_ok in E4. destruct E4 as (k & _ & E4).
        destruct (apply_smudge _ _ _ _ _ _ _) as ((al', c''), w'') eqn:Ea. injection E4 as _ _ _ <-.
        unfold apply_smudge in Ea. cbv zeta in Ea. destruct c as [[cr cg] cb]. destruct (bk_smudge k) as [[[sr sg] sb] sa].
        match type of Ea with (if ?q then _ else _) = _ => destruct q end; [|injection Ea as _ _ <-; reflexivity].
        match type of Ea with (if ?q then _ else _) = _ => destruct q end; [injection Ea as _ _ <-; reflexivity|].
        match type of Ea with context [mix_colors ?m ?a ?b ?c ?d ?e ?f] => destruct (mix_colors m a b c d e f) as [[[mr mg] mb] ma] end. injection Ea as _ _ <-. reflexivity.
      - injection E4 as _ _ _ <-. reflexivity. }
    clear E4. apply obind_ok in H. destruct H as (c'' & _ & H).
    destruct (anti_alias _ _ _) as [ra ha]. destruct (snap_pixel _ _ _ _ _) as [[xx yy] rr]. destruct c'' as [[cr cg] cb].
    apply obind_ok in H. destruct H as ((pt, sf) & Ed & H). injection H as _ _ <-. cbn [w_surf].
    rewrite W4 in Ed. eexists. split; [exact (drew_app _ _ _ _ _ D3 (drew_dab _ _ _ _ _ _ Ed (drew_none _)))|].
    constructor; [|constructor]. exists g1, rad, b2. cbn [dab_opaque]. exact E2.
  Qed.

  (** pressure after a simulation step *)
  Lemma update_pressure : forall (b : brush) (p : step mix64) b', has_states b -> update_states L b p = Ok b' ->
    st b' STATE_PRESSURE = next_pressure (fadd (st b STATE_PRESSURE) (sp_dpressure p)).
  Proof.
    intros b p b' Hs U. destruct (update_facts L b p b' Hs U) as (b1 & (_ & _ & _ & _ & _ & Ep) & (_ & Keep & _) & _).
    assert (st b' STATE_PRESSURE = st b1 STATE_PRESSURE) as -> by (inversion Keep as [|? ? _ K1]; subst; inversion K1 as [|? ? _ K2]; subst; inversion K2 as [|? ? _ K3]; subst; inversion K3 as [|? ? K4 _]; subst; exact K4).
    exact Ep.
  Qed.

  (** a dab made on the way, while the pressure is as [Q] says *)
  Definition underway (Q : f32 -> Prop) (ms : list (mapping (sng mix64))) (d : dab mix64) : Prop :=
    exists (b0 : brush) sp b1, shape b0 /\ b_settings b0 = ms /\ update_states L b0 sp = Ok b1 /\ Q (st b1 STATE_PRESSURE) /\ inked (flipped b1) d.
  Definition gliding (Q : f32 -> Prop) (p : progress E) : Prop := shape (p_brush p) /\ Q (st (p_brush p) STATE_PRESSURE) /\ below (p_moved p).

  Lemma one_dab_gliding : forall T Q (g : target mix64) (p p' : progress E), settles T Q -> T (g_pressure g) -> gliding Q p -> pending p = true -> one_dab L g p = Ok p' ->
    gliding Q p' /\ b_settings (p_brush p') = b_settings (p_brush p) /\
    exists ds, drew (w_surf (p_world p)) ds (w_surf (p_world p')) /\ Forall (underway Q (b_settings (p_brush p))) ds.
  Proof.
    intros T Q g p p' HQ Zg (Sh & Hq & Bl) Pe O. pose proof (one_dab_shape L _ _ _ Sh O) as Sh'. pose proof (one_dab_frame L _ _ _ O) as Fr.
    assert (b_settings (p_brush p') = b_settings (p_brush p)) as Es by (rewrite Fr; reflexivity). clear Fr.
    unfold pending in Pe. change (@nle (dbl mix64)) with dle in Pe. change (@nofZ (dbl mix64) 1) with (d_of_Z 1) in Pe. change (@wid mix64) with d_of_f in Pe. change (@nadd (sng mix64)) with fadd in Pe.
    destruct (fraction _ _ Bl Pe) as (dd & m' & Ed & Bm & Ff & Hf).
    unfold one_dab in O. cbv zeta in O. change (@nlt (sng mix64)) with flt in O. change (@nar mix64) with f_of_d in O. change (@wid mix64) with d_of_f in O. change (@nsub (dbl mix64)) with dsub in O. change (@nofZ (dbl mix64) 1) with (d_of_Z 1) in O.
    change (@nofZ (sng mix64)) with f_of_Z in O. change (car (sng mix64)) with f32 in *. rewrite Ed in O. clear Ed Pe.
    change (@ndiv (sng mix64)) with fdiv in O. change (@nmul (sng mix64)) with fmul in O. set (fr := fdiv dd (p_todo p)) in *. clearbody fr.
    apply obind_ok in O. destruct O as (b1 & U & O). apply obind_ok in O. destruct O as (((pn, b3), w3) & Ep & O). apply obind_ok in O. destruct O as ((r, rg) & _ & O).
    destruct (count_dabs_to _ _ _ _ _) as [todo b4] eqn:Ec. apply Ok_inj in O.
    pose proof (update_pressure _ _ _ (proj1 Sh) U) as P1. cbn [sp_dpressure step_towards] in P1. change (@nsub (sng mix64)) with fsub in P1.
    assert (Q (st b1 STATE_PRESSURE)) as Q1 by (rewrite P1; apply HQ; auto). clear P1.
    pose proof (shape_update L _ _ _ Sh U) as Sh1. destruct (prepare_inked _ _ _ _ _ _ Ep) as (ds & D & Hd).
    pose proof (prepare_frame L _ _ _ _ _ _ Ep) as (_ & Sm & _). destruct (Sm (has_set _ _ _ (proj1 Sh1))) as (_ & Sm').
    destruct (EaselRun.count_states L _ _ _ _ _ _ Ec) as (_ & K).
    rewrite <- O in Sh', Es |- *. cbn [p_brush p_world p_moved] in *. split; [|split; [exact Es|exists ds; split; [exact D|]]].
    - split; [exact Sh'|]. split; [|exact Bm]. rewrite K by discriminate. assert (st (with_random (with_rng b3 rg) r) STATE_PRESSURE = st b1 STATE_PRESSURE) as ->; [|exact Q1].
      rewrite <- (st_set_other b1 STATE_FLIP STATE_PRESSURE (fmul (st b1 STATE_FLIP) (f_of_Z (-1)))) by discriminate. unfold st. cbn [b_states with_random with_rng]. apply Sm'. vm_compute. left. lia.
    - eapply Forall_impl; [|exact Hd]. intros d Id. eexists (p_brush p), _, b1. split; [exact Sh|]. split; [reflexivity|]. split; [exact U|]. split; [exact Q1|exact Id].
  Qed.
  Lemma dabs_gliding : forall T Q (g : target mix64) n (p p' : progress E), settles T Q -> T (g_pressure g) -> gliding Q p -> dabs L n g p = Ok (Some p') ->
    gliding Q p' /\ pending p' = false /\ b_settings (p_brush p') = b_settings (p_brush p) /\
    exists ds, drew (w_surf (p_world p)) ds (w_surf (p_world p')) /\ Forall (underway Q (b_settings (p_brush p))) ds.
  Proof.
    intros T Q g. induction n as [|n IH]; intros p p' HQ Zg G H; cbn [dabs] in H; destruct (pending p) eqn:Pe; try discriminate H;
      try (apply Ok_inj in H; injection H as <-; split; [exact G|]; split; [exact Pe|]; split; [reflexivity|]; exists []; split; [apply drew_none|constructor]).
    apply obind_ok in H. destruct H as (p1 & O & H). destruct (one_dab_gliding T Q g p p1 HQ Zg G Pe O) as (G1 & Es1 & ds1 & D1 & U1).
    destruct (IH p1 p' HQ Zg G1 H) as (G2 & Pe2 & Es2 & ds2 & D2 & U2). rewrite Es1 in U2, Es2. split; [exact G2|]. split; [exact Pe2|]. split; [exact Es2|].
    exists (ds1 ++ ds2). split; [eapply drew_app; eauto|]. apply Forall_app. auto.
  Qed.

  Lemma update_partial : forall (b : brush) (p : step mix64) b', has_states b -> update_states L b p = Ok b' -> has_states b'.
  Proof. intros b p b' Hs U. destruct (update_facts L b p b' Hs U) as (b1 & _ & (Hs' & _) & _). exact Hs'. Qed.
  Lemma split_states : forall (b : brush) pt pr dp dt a b', stroke_split b pt pr dp dt = (a, b') -> b_states b' = b_states b /\ b_settings b' = b_settings b /\ b_reset b' = b_reset b.
  Proof.
    intros b pt pr dp dt a b' H. unfold stroke_split in H. cbv zeta in H. apply (f_equal snd) in H. revert H.
    generalize (match pt with Some v => v | None => negb (nlt (nofZ 0) (b_idling b) || neqb (b_painting b) (nofZ 0)) end). intros [|].
    - cbn [snd]. intros <-. repeat split.
    - destruct (neqb _ _); cbn [snd]; intros <-; repeat split.
  Qed.
  Lemma paint_gliding : forall T Q Q' n (b : brush) w (g : target mix64) t a b' w', settles T Q -> arrives T Q Q' -> T (g_pressure g) ->
    shape b -> Q (st b STATE_PRESSURE) -> below (st b STATE_PARTIAL_DABS) -> paint_to L n b w g t = Ok (Some (a, b', w')) ->
    Q' (st b' STATE_PRESSURE) /\ below (st b' STATE_PARTIAL_DABS) /\
    exists ds, drew (w_surf w) ds (w_surf w') /\ Forall (underway Q (b_settings b)) ds.
  Proof.
    intros T Q Q' n b w g t a b' w' HQ HA Tg Sh Hq Bl H. unfold paint_to in H. apply obind_ok in H. destruct H as ([p|] & Ed & H); [|discriminate H].
    apply obind_ok in H. destruct H as ((a1, b1) & Er & H). apply Ok_inj in H. unfold paint_dabs in Ed. cbv zeta in Ed.
    destruct (count_dabs_to _ _ _ _ _) as [todo b2] eqn:Ec. pose proof (shape_os _ _ (count_os L _ _ _ _ _ _ Ec) Sh) as Sh2.
    destruct (count_states L _ _ _ _ _ _ Ec) as (Os & K). pose proof (os_settings _ _ Os) as Es. clear Os Ec.
    assert (gliding Q (mkProgress b2 w None t (st b STATE_PARTIAL_DABS) todo [])) as G.
    { split; [exact Sh2|]. split; [cbn [p_brush]; rewrite K by discriminate; exact Hq|exact Bl]. }
    destruct (dabs_gliding T Q g n _ p HQ Tg G Ed) as ((Shp & Qp & Bp) & Pe & _ & ds & D & U). cbn [p_brush p_world] in D, U. rewrite Es in U. clear Ed G K Sh2.
    unfold paint_rest in Er. apply obind_ok in Er. destruct Er as (b3 & U3 & Er). cbv zeta in Er. apply Ok_inj in Er. apply split_states in Er. destruct Er as (S1 & _).
    pose proof (update_pressure _ _ _ (proj1 Shp) U3) as P3. pose proof (update_partial _ _ _ (proj1 Shp) U3) as Hs3.
    assert (b' = b1 /\ w' = p_world p) as (-> & ->) by (injection H; auto). unfold st. rewrite S1. fold (st (set_st b3 STATE_PARTIAL_DABS (nadd (p_moved p) (p_todo p))) STATE_PRESSURE).
    fold (st (set_st b3 STATE_PARTIAL_DABS (nadd (p_moved p) (p_todo p))) STATE_PARTIAL_DABS). split; [|split; [|exists ds; auto]].
    - rewrite st_set_other by discriminate. rewrite P3. cbn [sp_dpressure last_step step_towards]. apply HA; auto.
    - rewrite st_set_same; [exact Pe|exact Hs3|vm_compute; lia].
  Qed.

  (** a brush whose next event either starts afresh or has a pressure in [Q] behind it *)
  Definition poised (Q : f32 -> Prop) (b : brush) : Prop := b_reset b = true \/ Q (st b STATE_PRESSURE) /\ below (st b STATE_PARTIAL_DABS).
  Lemma rest_gliding : forall T Q Q' n (b : brush) w t (e : event mix64) a b' w', settles T Q -> arrives T Q Q' -> (forall z, T z -> Q' z) -> T (ev_pressure e) ->
    shape b -> poised Q b -> stroke_rest L n b w t e = Ok (Some (a, b', w')) ->
    ((exists s x y k, b' = with_skip b s x y k) \/ poised Q' b') /\
    exists ds, drew (w_surf w) ds (w_surf w') /\ Forall (underway Q (b_settings b)) ds.
  Proof.
    intros T Q Q' n b w t e a b' w' HQ HA HT Te Sh Po H. unfold stroke_rest in H. destruct (skip_input _ _ _ _ _) as [b1 go] eqn:E1. apply skip_fields in E1.
    destruct go as [dt|].
    - apply obind_ok in H. destruct H as (((x, y), b2) & E2 & H). apply track_fields in E2.
      assert (shape b2 /\ b_states b2 = b_states b /\ b_settings b2 = b_settings b /\ b_reset b2 = b_reset b) as (Sh2 & S2 & Es2 & R2).
      { rewrite E2, E1. split; [exact Sh|]. repeat split. }
      clear E1 E2. match type of H with (if ?c then _ else _) = _ => destruct c eqn:Ec end.
      + apply obind_ok in H. destruct H as (b3 & E3 & H). apply do_reset_states in E3. destruct E3 as (S3 & R3). apply Ok_inj in H.
        assert (b' = b3 /\ w' = w) as (-> & ->) by (injection H; auto). split; [right; right|exists []; split; [apply drew_none|constructor]].
        unfold st. rewrite S3. split; [apply HT, Te|]. apply below_zero. reflexivity.
      + apply Bool.orb_false_iff in Ec. destruct Ec as (_ & Er). rewrite R2 in Er. destruct Po as [Po|(Hq & Bl)]; [congruence|].
        eapply (paint_gliding T Q Q') in H; try eassumption.
        * destruct H as (A & B & C). rewrite Es2 in C. split; [right; right; auto|exact C].
        * unfold st. rewrite S2. exact Hq.
        * unfold st. rewrite S2. exact Bl.
    - apply Ok_inj in H. assert (b' = b1 /\ w' = w) as (-> & ->) by (injection H; auto). split; [left; eauto|exists []; split; [apply drew_none|constructor]].
  Qed.

  (** *** the opacity of a dab at no pressure *)
  Definition inky (m : mapping (sng mix64)) : Prop :=
    zero (mp_base m) /\
    exists p0 ps, mp_points m = p0 :: ps /\ Forall (fun p => cp_n p = 0) ps /\ cp_n p0 <> 0 /\
      exists x0 y0 x1 y1 : f32, cell (cp_x p0) 0 = Ok x0 /\ cell (cp_y p0) 0 = Ok y0 /\ cell (cp_x p0) 1 = Ok x1 /\ cell (cp_y p0) 1 = Ok y1 /\
        zero x0 /\ zero y0 /\ fin x1 /\ flt f0 x1 = true /\ fin y1.
  Lemma sum_none : forall (ps : list (control (sng mix64))) data r v, Forall (fun p => cp_n p = 0) ps -> sum_inputs ps data r = Ok v -> v = r.
  Proof.
    induction ps as [|p ps IH]; intros data r v F H; cbn [sum_inputs] in H; [apply Ok_inj in H; auto|]. inversion F as [|? ? Hp Hps]; subst.
    destruct data as [|x data]; rewrite Hp in H; cbn [Z.eqb] in H; eapply IH; eauto.
  Qed.
  Lemma positive_not : forall x z : f32, flt f0 x = true -> zero z -> flt x z = false.
  Proof. intros x z P Z. destruct (zero_case z Z) as (s & ->). destruct x as [[|]|[|]| |[|] m e p]; try discriminate P; reflexivity. Qed.
  Lemma segment_stays : forall (p : control (sng mix64)) n i x x0 y0 x1 y1, flt x1 x = false -> segment p n i x x0 y0 x1 y1 = Ok (x0, y0, x1, y1).
  Proof.
    intros p [|n] i x x0 y0 x1 y1 H; cbn [segment]; [reflexivity|]. change (@nlt (sng mix64)) with flt. rewrite H, Bool.andb_false_r. reflexivity.
  Qed.
  Lemma curve_zero : forall (p : control (sng mix64)) x v x0 y0 x1 y1,
    cell (cp_x p) 0 = Ok x0 -> cell (cp_y p) 0 = Ok y0 -> cell (cp_x p) 1 = Ok x1 -> cell (cp_y p) 1 = Ok y1 ->
    zero x0 -> zero y0 -> fin x1 -> flt f0 x1 = true -> fin y1 -> zero x -> curve_value p x = Ok v -> zero v.
  Proof.
    intros p x v x0 y0 x1 y1 C0 D0 C1 D1 X0 Y0 F1 P1 G1 X H. unfold curve_value in H. rewrite C0 in H. cbn [obind] in H. rewrite D0 in H. cbn [obind] in H. rewrite C1 in H. cbn [obind] in H. rewrite D1 in H. cbn [obind] in H.
    rewrite segment_stays in H by (apply positive_not; auto). cbn [obind] in H. match type of H with (if ?c then _ else _) = _ => destruct c end; apply Ok_inj in H; subst v; [exact Y0|].
    change (@ndiv (sng mix64)) with fdiv. change (@nadd (sng mix64)) with fadd. change (@nmul (sng mix64)) with fmul. change (@nsub (sng mix64)) with fsub.
    rewrite (minus_zero x1 x0) by auto. apply zero_over; [exact F1|exact P1|]. apply zero_plus.
    - apply fin_times_zero; [exact G1|]. apply zero_minus; auto.
    - rewrite (minus_zero x1 x) by auto. apply zero_times_fin; auto.
  Qed.
  Lemma inky_zero : forall m x data v, inky m -> zero x -> mapping_calculate m (x :: data) = Ok v -> zero v.
  Proof.
    intros m x data v (Zb & p0 & ps & Ep & Fs & Np & x0 & y0 & x1 & y1 & C0 & D0 & C1 & D1 & X0 & Y0 & F1 & P1 & G1) X H. unfold mapping_calculate in H.
    destruct (mp_used m =? 0); [apply Ok_inj in H; subst v; exact Zb|]. rewrite Ep in H. cbn [sum_inputs] in H. apply Z.eqb_neq in Np. rewrite Np in H.
    apply obind_ok in H. destruct H as (y & Ey & H). apply sum_none in H; [|exact Fs]. subst v. apply zero_plus; [exact Zb|].
    exact (curve_zero p0 x y x0 y0 x1 y1 C0 D0 C1 D1 X0 Y0 F1 P1 G1 X Ey).
  Qed.
  Lemma pos_fin : forall x : f32, fin x -> fin (@Brush.pos mix64 x).
  Proof. intros x F. unfold Brush.pos. destruct (nlt _ _); [reflexivity|exact F]. Qed.
  Lemma zero_clamp : forall x : f32, zero x -> zero (clamp01 mix64 x).
  Proof. intros x X. destruct (zero_case x X) as ([|] & ->); reflexivity. Qed.
  Local Transparent dsub d_of_Z d_of_f f_of_d.
  Lemma one_less_zero : forall x : f32, zero x -> f_of_d (dsub (d_of_Z 1) (d_of_f x)) = f1.
  Proof. intros x X. destruct (zero_case x X) as ([|] & ->); apply B2SF_inj; vm_compute; reflexivity. Qed.
  Lemma one_less_one : zero (f_of_d (dsub (d_of_Z 1) (d_of_f f1))).
  Proof. vm_compute. reflexivity. Qed.
  Local Opaque dsub d_of_Z d_of_f f_of_d.
  Lemma opacity_zero : forall b : brush, (forall y, powf_ L f1 y = f1) -> fin (val b SET_OPAQUE) -> zero (val b SET_OPAQUE_MULTIPLY) -> zero (dab_opacity L b).
  Proof.
    intros b Pw Fo Zm. unfold dab_opacity. cbv zeta. assert (zero (clamp01 mix64 (nmul (Brush.pos (val b SET_OPAQUE)) (val b SET_OPAQUE_MULTIPLY)))) as Z.
    { apply zero_clamp. apply fin_times_zero; [apply pos_fin; exact Fo|exact Zm]. }
    revert Z. generalize (clamp01 mix64 (nmul (Brush.pos (val b SET_OPAQUE)) (val b SET_OPAQUE_MULTIPLY))). intros o Z. destruct (truthy _); [|exact Z].
    change (@nar mix64) with f_of_d. change (@wid mix64) with d_of_f. change (@nsub (dbl mix64)) with dsub. change (@nofZ (dbl mix64)) with d_of_Z.
    rewrite (one_less_zero o Z). rewrite Pw. apply one_less_one.
  Qed.
  Lemma square_fin : forall x : f32, dle (d_of_f (fmul x x)) (d_of_Z 1) = true -> fin (fmul x x).
  Proof.
    intros x H. pose proof (square_up x) as N. destruct (fmul x x) as [s|[|]| |s m e p]; try reflexivity; [destruct (N eq_refl)| |].
    - exfalso. Local Transparent d_of_f d_of_Z dle. vm_compute in H. discriminate H.
    - exfalso. vm_compute in H. discriminate H. Local Opaque d_of_f d_of_Z dle.
  Qed.
  Lemma size_zero : forall (b : brush) o r o' b', zero o -> dab_size L b o = Ok (r, o', b') -> zero o'.
  Proof.
    intros b o r o' b' Z H. unfold dab_size in H. cbv zeta in H. destruct (truthy _).
    - apply obind_ok in H. destruct H as ((g, k) & _ & H). apply Ok_inj in H. assert (Some o' = Some (snd (fst (r, o', b')))) as Eo by reflexivity. rewrite <- H in Eo. cbn [fst snd] in Eo. clear H.
      revert Eo. unfold sqr. generalize (ndiv (st b STATE_ACTUAL_RADIUS) (clamp_radius (expf_ L (nadd (val b SET_RADIUS_LOGARITHMIC) (nmul g (val b SET_RADIUS_BY_RANDOM)))))). intros q Eo.
      change (@nmul (sng mix64)) with fmul in Eo. change (@nle (dbl mix64)) with dle in Eo. change (@wid mix64) with d_of_f in Eo. change (@nofZ (dbl mix64)) with d_of_Z in Eo.
      destruct (dle (d_of_f (fmul q q)) (d_of_Z 1)) eqn:Ed; injection Eo as ->; [|exact Z]. apply zero_times_fin; [apply square_fin; exact Ed|exact Z].
    - apply Ok_inj in H. assert (o' = snd (fst (r, o', b'))) as -> by reflexivity. rewrite <- H. exact Z.
  Qed.
  (** without pressure these settings make no ink *)
  Definition dried (ms : list (mapping (sng mix64))) : Prop :=
    (exists m, nth_error ms SET_PRESSURE_GAIN_LOG = Some m /\ fin (expf_ L (mp_base m) : f32)) /\
    forall data vs, length data = INPUTS_COUNT -> zero (nth INP_PRESSURE data f0) -> calculate_all (M := mix64) ms data = Ok vs ->
      zero (nth SET_OPAQUE_MULTIPLY vs f0) /\ fin (nth SET_OPAQUE vs f0 : f32).
  Lemma underway_clear : forall ms d, (forall y, powf_ L f1 y = f1) -> dried ms -> underway zero ms d -> zero (dab_opaque d).
  Proof.
    intros ms d Pw ((mg & Ng & Fg) & Dr) (b0 & sp & b1 & Sh & Es & U & Z & g & r0 & b2 & Sz).
    destruct (update_more L b0 sp b1 (proj1 Sh) U) as (_ & _ & Es1 & _ & ins & Ln & Ca & I0 & _). rewrite Es in Ca, Es1.
    assert (zero (nth INP_PRESSURE ins f0)) as Zi.
    { change (zero (nth 0 ins (@nofZ (sng mix64) 0))). rewrite I0. apply zero_times_fin; [|exact Z]. unfold base. rewrite Es, Ng. exact Fg. }
    destruct (Dr _ _ Ln Zi Ca) as (Zm & Fo). eapply size_zero; [|exact Sz]. apply opacity_zero; [exact Pw|exact Fo|exact Zm].
  Qed.
  (** one way to have such settings: a curve for pressure that starts at the origin *)
  Lemma inky_dried : forall ms m mo mg, nth_error ms SET_OPAQUE_MULTIPLY = Some m -> inky m -> nth_error ms SET_OPAQUE = Some mo -> mp_used mo = 0 -> fin (mp_base mo : f32) ->
    nth_error ms SET_PRESSURE_GAIN_LOG = Some mg -> fin (expf_ L (mp_base mg) : f32) -> dried ms.
  Proof.
    intros ms m mo mg Nm Im No Uo Fo Ng Fg. split; [eauto|]. intros data vs Ln Z Ca. split.
    - destruct data as [|x data]; [discriminate Ln|]. exact (inky_zero m x data _ Im Z (calc_nth _ _ _ _ _ Ca Nm)).
    - pose proof (calc_nth _ _ _ _ _ Ca No) as X. unfold mapping_calculate in X. rewrite Uo in X. cbn [Z.eqb] in X. apply Ok_inj in X. change f0 with (@nofZ (sng mix64) 0). rewrite <- X. exact Fo.
  Qed.

  (** *** a whole event *)
  Lemma sanitise_pressure : forall (e : event mix64) t e', sanitise L e = Ok (t, e') -> ev_pressure e' = f_of_Z 0 \/ ev_pressure e' = next_pressure (ev_pressure e).
  Proof.
    intros e t e' H. unfold sanitise in H. apply obind_ok in H. destruct H as (t1 & _ & H). cbv zeta in H.
    match type of H with context [mkEvent _ _ _ _ _ _ _ _ _ _] => idtac end.
    match type of H with (if ?c then Ok (_, ?x) else _) = _ => destruct c; [|discriminate H]; assert (e' = x) as -> by (apply Ok_inj in H; injection H; auto) end.
    match goal with |- context [if ?c then mkEvent _ _ _ _ _ _ _ _ _ _ else _] => destruct c end; [left; reflexivity|right; reflexivity].
  Qed.
  Lemma next_soft : forall z : f32, fin z -> (b2r z <= 1)%R -> soft (next_pressure z).
  Proof.
    intros q F H. unfold next_pressure. destruct (d_of_f_exact _ F) as (Vd & Fd). destruct (d_of_Z_exact 0) as (W0 & G0); [lia|]. rewrite dle_spec, Vd, W0 by auto.
    destruct (Rle_bool_spec (b2r q) 0) as [C|C].
    - destruct (f_of_Z_exact 0) as (V0 & F0); [lia|]. split; [exact F0|]. rewrite V0. lra.
    - split; [exact F|lra].
  Qed.
  Lemma next_none : forall z : f32, fin z -> (b2r z <= 0)%R -> next_pressure z = f_of_Z 0.
  Proof.
    intros q F H. unfold next_pressure. destruct (d_of_f_exact _ F) as (Vd & Fd). destruct (d_of_Z_exact 0) as (W0 & G0); [lia|]. rewrite dle_spec, Vd, W0 by auto.
    rewrite Rle_bool_true by exact H. reflexivity.
  Qed.
  Lemma skip_poised : forall Q (b : brush) s x y k, poised Q b -> poised Q (with_skip b s x y k).
  Proof. intros Q b s x y k H. exact H. Qed.
  (** an event without pressure *)
  Lemma hover_event : forall Q Q' n (b : brush) w (e : event mix64) a b' w', settles zero Q -> arrives zero Q Q' -> (forall z, zero z -> Q' z) -> fin (ev_pressure e : f32) -> (b2r (ev_pressure e : f32) <= 0)%R ->
    shape b -> poised Q b -> stroke_to L n b w e = Ok (Some (a, b', w')) ->
    ((exists s x y k, b' = with_skip b s x y k) \/ poised Q' b') /\
    exists ds, drew (w_surf w) ds (w_surf w') /\ Forall (underway Q (b_settings b)) ds.
  Proof.
    intros Q Q' n b w e a b' w' HQ HA HZ F P Sh Po H. unfold stroke_to in H. apply obind_ok in H. destruct H as ((t, e1) & Es & H).
    assert (ev_pressure e1 = f_of_Z 0) as Pr. { destruct (sanitise_pressure _ _ _ Es) as [X|X]; [exact X|]. rewrite X. apply next_none; auto. }
    assert (truthy (ev_pressure e1) = false) as Tr by (rewrite Pr; reflexivity). rewrite Tr, Bool.andb_false_r in H. cbn [andb] in H.
    eapply (rest_gliding zero Q Q'); try eassumption. rewrite Pr. reflexivity.
  Qed.
  (** any event with a pressure of at most one *)
  Lemma soft_event : forall n (b : brush) w (e : event mix64) a b' w', fin (ev_pressure e : f32) -> (b2r (ev_pressure e : f32) <= 1)%R ->
    shape b -> poised calm b -> stroke_to L n b w e = Ok (Some (a, b', w')) -> poised calm b'.
  Proof.
    intros n b w e a b' w' F P Sh Po H. unfold stroke_to in H. apply obind_ok in H. destruct H as ((t, e1) & Es & H).
    assert (forall n (b : brush) w t (e : event mix64) a b' w', soft (ev_pressure e) -> shape b -> poised calm b -> stroke_rest L n b w t e = Ok (Some (a, b', w')) -> poised calm b') as K.
    { clear. intros n b w t e a b' w' S Sh Po H. destruct (rest_gliding soft calm calm n b w t e a b' w' calm_settles calm_arrives soft_calm S Sh Po H) as ([(s & x & y & k & ->)|X] & _); [exact Po|exact X]. }
    assert (soft (ev_pressure e1)) as Pr. { destruct (sanitise_pressure _ _ _ Es) as [X|X]; rewrite X; [apply zero_soft; reflexivity|]. apply next_soft; auto. }
    match type of H with (if ?c then _ else _) = _ => destruct c end; [|eapply K; eauto].
    apply obind_ok in H. destruct H as ((t2, e2) & Es2 & H). apply obind_ok in H. destruct H as ([((a2, b2), w2)|] & E2 & H); [|discriminate H].
    assert (soft (ev_pressure e2)) as Pr2. { destruct (sanitise_pressure _ _ _ Es2) as [X|X]; rewrite X; apply zero_soft; [reflexivity|]. apply next_zero. reflexivity. }
    pose proof (K _ _ _ _ _ _ _ _ Pr2 Sh Po E2) as Po2. pose proof (stroke_rest_shape L _ _ _ _ _ _ _ _ Sh E2) as Sh2. eapply K; [|exact Sh2|exact Po2|exact H]. exact Pr.
  Qed.
  (** the other calls *)
  Definition leaves_pressure (c : call mix64) : Prop :=
    match c with CStroke _ => False | CState i _ => i <> Z.of_nat STATE_PRESSURE /\ i <> Z.of_nat STATE_PARTIAL_DABS | _ => True end.
  Lemma call_poised : forall Q n (b : brush) w c b' w', leaves_pressure c -> poised Q b -> run_call L n b w c = Ok (Some (b', w')) -> poised Q b' /\ w' = w.
  Proof.
    intros Q n b w c b' w' Lc Po O. destruct c as [e| | |id v|id i k|id i k x y|i v|i k]; cbn [run_call leaves_pressure] in Lc, O.
    - destruct Lc.
    - apply Ok_inj in O. assert (b' = request_reset b /\ w' = w) as (-> & ->) by (injection O; auto). split; [left; reflexivity|reflexivity].
    - apply Ok_inj in O. assert (b' = new_stroke b /\ w' = w) as (-> & ->) by (injection O; auto). split; [exact Po|reflexivity].
    - apply obind_ok in O. destruct O as (b1 & E1 & O). apply Ok_inj in O. assert (b' = b1 /\ w' = w) as (-> & ->) by (injection O; auto). split; [|reflexivity]. unfold set_base_value in E1.
      apply obind_ok in E1. destruct E1 as (m & _ & E1). apply Ok_inj in E1. rewrite <- E1. exact Po.
    - apply obind_ok in O. destruct O as (b1 & E1 & O). apply Ok_inj in O. assert (b' = b1 /\ w' = w) as (-> & ->) by (injection O; auto). split; [|reflexivity]. unfold set_mapping_n in E1.
      apply obind_ok in E1. destruct E1 as (m & _ & E1). apply obind_ok in E1. destruct E1 as (m' & _ & E1). apply Ok_inj in E1. rewrite <- E1. exact Po.
    - apply obind_ok in O. destruct O as (b1 & E1 & O). apply Ok_inj in O. assert (b' = b1 /\ w' = w) as (-> & ->) by (injection O; auto). split; [|reflexivity]. unfold set_mapping_point in E1.
      apply obind_ok in E1. destruct E1 as (m & _ & E1). apply obind_ok in E1. destruct E1 as (m' & _ & E1). apply Ok_inj in E1. rewrite <- E1. exact Po.
    - apply obind_ok in O. destruct O as (b1 & E1 & O). apply Ok_inj in O. assert (b' = b1 /\ w' = w) as (-> & ->) by (injection O; auto). split; [|reflexivity]. unfold set_state in E1.
      destruct ((0 <=? i) && (i <? Z.of_nat STATES_COUNT)) eqn:C; [|discriminate E1]. apply andb_prop in C. destruct C as (C & _). apply Z.leb_le in C. apply Ok_inj in E1. rewrite <- E1.
      destruct Po as [Po|Po]; [left; exact Po|right]. rewrite !st_set_other by lia. exact Po.
    - apply obind_ok in O. destruct O as ((r, b1) & E1 & O). apply Ok_inj in O. assert (b' = b1 /\ w' = w) as (-> & ->) by (injection O; auto). split; [|reflexivity]. unfold set_bucket_state in E1.
      destruct (i <? b_nbuckets b). { destruct (b_buckets b) as [mem|]; [|discriminate E1]. apply obind_ok in E1. destruct E1 as (mem' & _ & E1). apply Ok_inj in E1. assert (b1 = with_buckets b (Some mem') (b_minb b) (b_maxb b)) as -> by (injection E1; auto). exact Po. }
      apply Ok_inj in E1. assert (b1 = b) as -> by (injection E1; auto). exact Po.
  Qed.
  (** a new brush *)
  Lemma new_poised : forall n g jv jb lo hi (b : brush), brush_new L n g jv jb lo hi = Ok b -> poised zero b.
  Proof.
    intros n g jv jb lo hi b H. unfold brush_new in H. apply obind_ok in H. destruct H as (mem & _ & H). cbv zeta in H. apply obind_ok in H. destruct H as (b1 & E1 & H). apply Ok_inj in H.
    assert (b_reset b1 = true) as R1.
    { unfold brush_reset in E1. cbv zeta in E1. cbn [with_states with_skip with_reset b_buckets] in E1. destruct mem as [mem|]; [|apply Ok_inj in E1; subst b1; reflexivity].
      match type of E1 with (if ?c then _ else _) = _ => destruct c end; [|apply Ok_inj in E1; subst b1; reflexivity].
      apply obind_ok in E1. destruct E1 as (m & _ & E1). apply Ok_inj in E1. subst b1. reflexivity. }
    subst b. left. exact R1.
  Qed.
End Hover.
