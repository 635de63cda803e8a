(** The default brush, and changes of its base values, are within the ranges of
    the theorem about painting programs. *)
From Verif Require Import Base F32 F32Proofs Arith Color Mapping P_Mapping Settings Spectral Brush BrushProofs ReturnProofs BrushSettings DabSeen BrushInst BrushToy P_Defaults P_Limits
  Easel EaselNum EaselDab EaselStep EaselProofs EaselRun EaselProg.
From Coq Require Import Reals Lra Floats.SpecFloat.
From Flocq Require Import Core.Core IEEE754.BinarySingleNaN.
Local Open Scope Z_scope.

Definition fconst_test (a b : Z) (x : f32) : bool := is_finite x && fle (f_of_Z a) x && fle x (f_of_Z b).
Lemma fconst : forall a b x, Z.abs a <= 16777216 -> Z.abs b <= 16777216 -> fconst_test a b x = true -> zf a x b.
Proof.
  intros a b x Ha Hb H. unfold fconst_test in H. apply andb_prop in H. destruct H as (H & H2). apply andb_prop in H. destruct H as (F & H1).
  destruct (f_of_Z_exact a) as (Ea & Fa); [lia|]. destruct (f_of_Z_exact b) as (Eb & Fb); [lia|].
  rewrite fle_spec, Ea in H1 by auto. rewrite fle_spec, Eb in H2 by auto.
  split; [exact F|]. split; [destruct (Rle_bool_spec (IZR a) (b2r x)); [lra|discriminate]|destruct (Rle_bool_spec (b2r x) (IZR b)); [lra|discriminate]].
Qed.

(** *** A call of the brush does to its settings what the same edit does to them alone *)
Section Traces.
  Context (L : mathlib mix64) {E : env mix64}.
  Definition traces (f : brush E -> outcome (brush E)) (g : settings -> outcome settings) : Prop :=
    forall b b', f b = Ok b' -> g (b_settings b) = Ok (b_settings b').
  Lemma setting_found : forall (b : brush E) id m e m', setting_of b id = Ok m -> apply_edit m e = Ok m' -> edit_setting (b_settings b) id e = Ok (upd (b_settings b) (Z.to_nat id) m').
  Proof.
    intros b id m e m' H A. unfold setting_of in H. unfold edit_setting. destruct ((0 <=? id) && (id <? Z.of_nat SETTINGS_COUNT)); [|discriminate H].
    destruct (nth_error (b_settings b) (Z.to_nat id)) as [m1|]; [|discriminate H]. apply Ok_inj in H. subst m1. rewrite A. reflexivity.
  Qed.
  Lemma base_traces : forall id (v : car (sng mix64)), traces (fun b => set_base_value L b id v) (fun ms => edit_setting ms id (P_Mapping.SetBase v)).
  Proof.
    intros id v b b' H. unfold set_base_value in H. apply obind_ok in H. destruct H as (m & S & H). apply Ok_inj in H. subst b'. apply (setting_found b id m); [exact S|reflexivity].
  Qed.
  Lemma points_trace : forall id input n, traces (fun b => set_mapping_n b id input n) (fun ms => edit_setting ms id (P_Mapping.SetN input n)).
  Proof.
    intros id input n b b' H. unfold set_mapping_n in H. apply obind_ok in H. destruct H as (m & S & H). apply obind_ok in H. destruct H as (m' & A & H). apply Ok_inj in H. subst b'.
    apply (setting_found b id m); [exact S|exact A].
  Qed.
  Lemma point_traces : forall id input k (x y : car (sng mix64)), traces (fun b => set_mapping_point b id input k x y) (fun ms => edit_setting ms id (P_Mapping.SetPoint input k x y)).
  Proof.
    intros id input k x y b b' H. unfold set_mapping_point in H. apply obind_ok in H. destruct H as (m & S & H). apply obind_ok in H. destruct H as (m' & A & H). apply Ok_inj in H. subst b'.
    apply (setting_found b id m); [exact S|exact A].
  Qed.
  Lemma traces_bind : forall f1 g1 f2 g2, traces f1 g1 -> traces f2 g2 -> traces (fun b => let* b := f1 b in f2 b) (fun ms => let* ms := g1 ms in g2 ms).
  Proof. intros f1 g1 f2 g2 H1 H2 b b' H. apply obind_ok in H. destruct H as (b1 & E1 & H). rewrite (H1 _ _ E1). cbn [obind]. apply H2. exact H. Qed.
  Lemma traces_fold : forall {A} (f : brush E -> A -> outcome (brush E)) (g : settings -> A -> outcome settings) (l : list A), (forall x, traces (fun b => f b x) (fun ms => g ms x)) ->
    traces (fun b => ofold f l b) (fun ms => ofold g l ms).
  Proof.
    intros A f g l H. induction l as [|x l IH]; intros b b' Hm; cbn [ofold] in *; [apply Ok_inj in Hm; subst b'; reflexivity|].
    apply obind_ok in Hm. destruct Hm as (b1 & E1 & Hm). rewrite (H x _ _ E1). cbn [obind]. apply IH. exact Hm.
  Qed.
  Lemma defaults_trace : traces (fun b => from_defaults L b) edit_to_defaults.
  Proof.
    unfold from_defaults, edit_to_defaults. cbv zeta.
    refine (traces_bind _ _ _ _ (traces_fold _ _ _ _) (traces_bind _ _ _ _ (points_trace _ _ _) (traces_bind _ _ _ _ (point_traces _ _ _ _ _) (point_traces _ _ _ _ _)))).
    intros id. refine (traces_bind _ _ _ _ (traces_fold _ _ _ _) (base_traces _ _)). intros i. apply points_trace.
  Qed.
End Traces.

(** *** The values of the default settings *)
Definition default_value (i : nat) : f32 := number (M := mix64) (documented (Z.of_nat i)).

Lemma hardness_default : hardness_range (default_value SET_HARDNESS).
Proof.
  assert (B2SF (default_value SET_HARDNESS) = S754_finite false 13421773 (-24)) as E by (vm_compute; reflexivity).
  split; [vm_compute; reflexivity|]. right. rewrite <- (SF2R_B2SF 24 128 (default_value SET_HARDNESS)), E.
  unfold SF2R, F2R. cbn [Fnum Fexp cond_Zopp]. change (bpow radix2 (-24)) with (/ 16777216)%R. lra.
Qed.
Lemma softness_default : softness_range (default_value SET_SOFTNESS).
Proof. destruct (fconst 0 0 (default_value SET_SOFTNESS)) as (F & H); [lia|lia|vm_compute; reflexivity|]. split; [exact F|lra]. Qed.
Lemma aa_default : aa_ok (default_value SET_ANTI_ALIASING).
Proof. destruct (fconst 1 1 (default_value SET_ANTI_ALIASING)) as (F & H); [lia|lia|vm_compute; reflexivity|]. split; [exact F|lra]. Qed.
Lemma nonpos_test : forall v : f32, fconst_test 0 0 v = true -> nonposf v.
Proof. intros v H. destruct (fconst 0 0 v) as (F & B); [lia|lia|exact H|]. split; [exact F|lra]. Qed.

Lemma range_default : forall i P, In (i, P) ranges -> i <> SET_OPAQUE_MULTIPLY -> P (default_value i).
Proof.
  intros i P I N. cbn in I.
  repeat (destruct I as [I|I];
    [injection I as <- <-; first
       [ exact hardness_default | exact softness_default | exact aa_default
       | exfalso; apply N; reflexivity
       | apply fconst; [lia|lia|vm_compute; reflexivity]
       | apply nonpos_test; vm_compute; reflexivity
       | vm_compute; reflexivity ]|]).
  destruct I.
Qed.
Lemma base_default : forall i P, In (i, P) base_ranges -> P (default_value i).
Proof.
  intros i P I. cbn in I.
  repeat (destruct I as [I|I];
    [injection I as <- <-; first
       [ apply fconst; [lia|lia|vm_compute; reflexivity]
       | apply nonpos_test; vm_compute; reflexivity
       | vm_compute; reflexivity ]|]).
  destruct I.
Qed.

(** the straight line through (0,0) and (1,1) *)
Lemma unit_line : forall x : f32, zf 0 x 117 -> zf 0 (line (K := sng mix64) (f_of_Z 0, f_of_Z 0) (f_of_Z 1, f_of_Z 1) x) 117.
Proof.
  intros x (Fx & Hx). unfold line. cbn [fst snd]. change (@neqb (sng mix64)) with feq. assert (feq (f_of_Z 0) (f_of_Z 1) = false) as -> by (vm_compute; reflexivity). cbn [orb].
  change (@ndiv (sng mix64)) with fdiv. change (@nadd (sng mix64)) with fadd. change (@nmul (sng mix64)) with fmul. change (@nsub (sng mix64)) with fsub.
  destruct (zf_Z 0) as ((F0 & _) & V0); [lia|]. destruct (zf_Z 1) as ((F1 & _) & V1); [lia|].
  destruct (zf_sub 0 117 x (f_of_Z 0) Fx F0) as ((Fa & Ha) & _); [split; lia|rewrite V0; simpl; lra|].
  destruct (zf_mul 0 117 (f_of_Z 1) _ F1 Fa) as ((Fb & Hb) & _); [split; lia|rewrite V1; simpl in *; lra|].
  destruct (zf_sub (-116) 1 (f_of_Z 1) x F1 Fx) as ((Fc & Hc) & _); [split; lia|rewrite V1; simpl in *; lra|].
  destruct (zf_mul 0 0 (f_of_Z 0) _ F0 Fc) as ((Fd & Hd) & _); [split; lia|rewrite V0; simpl in *; lra|].
  destruct (zf_add 0 117 _ _ Fb Fd) as ((Fe & He) & _); [split; lia|simpl in *; lra|].
  assert (zf 1 (fsub (f_of_Z 1) (f_of_Z 0)) 1) as (Ff & Hf) by (apply fconst; [lia|lia|vm_compute; reflexivity]).
  assert (b2r (fsub (f_of_Z 1) (f_of_Z 0)) = 1%R) as Vf by lra.
  apply zf_div; auto; [lra|split; lia|rewrite Vf; unfold Rdiv; rewrite Rinv_1, Rmult_1_r; exact He].
Qed.

Lemma fresh_ok : settings_ok (M := mix64) (repeat (mapping_new (sng mix64) INPUTS_COUNT) SETTINGS_COUNT).
Proof. split; [apply repeat_length|]. apply Forall_forall. intros m H. apply repeat_spec in H. subst m. exists []. reflexivity. Qed.

(** loading the defaults always succeeds and gives settings within the ranges; only
    opaque_multiply has a curve *)
Lemma defaults_tuned : forall ms, settings_ok (M := mix64) ms -> exists ms', edit_to_defaults ms = Ok ms' /\ tuned ms' /\ length ms' = SETTINGS_COUNT /\
  (forall i m, nth_error ms' i = Some m -> i <> SET_OPAQUE_MULTIPLY -> mp_used m = 0) /\
  (forall i m, nth_error ms' i = Some m -> mp_base m = default_value i).
Proof.
  intros ms Hms. assert (exists b : brush toy, b_settings b = ms) as (b & Eb).
  { assert (match toy_brush 0 with Ok _ => true | _ => false end = true) as Hb by (vm_compute; reflexivity). destruct (toy_brush 0) as [b| |]; [|discriminate Hb|discriminate Hb]. exists (with_settings b ms). reflexivity. }
  destruct (loads_defaults toy_lib (E := toy)) with (b := b) as (b' & Ef & (Sb & _ & _ & Sc) & Cd & _); [vm_compute; reflexivity|rewrite Eb; exact Hms|].
  pose proof (defaults_trace toy_lib (E := toy) b b' Ef) as Tr. rewrite Eb in Tr. exists (b_settings b'). split; [exact Tr|].
  assert (length (b_settings b') = SETTINGS_COUNT) as Ln.
  { destruct (Cd (repeat (f_of_Z 0 : car (sng mix64)) INPUTS_COUNT)) as (vs & Ev & _); [apply repeat_length|].
    assert (edit_to_defaults ms = Ok (b_settings b')) as Q by exact Tr. clear - Q Hms Eb Ef.
    destruct (settings_history b) as (h & Hh); [rewrite Eb; exact Hms|].
    destruct (defaults_history toy_lib (E := toy) ltac:(vm_compute; reflexivity) b h Hh) as (b2 & E2 & _ & H2). rewrite E2 in Ef. apply Ok_inj in Ef. subst b2. apply H2. }
  assert (forall i m, nth_error (b_settings b') i = Some m -> (i < SETTINGS_COUNT)%nat) as Lt by (intros i m N; rewrite <- Ln; apply nth_error_Some; rewrite N; discriminate).
  assert (forall i m, nth_error (b_settings b') i = Some m -> setting_of b' (Z.of_nat i) = Ok m) as So.
  { intros i m N. pose proof (Lt i m N). unfold setting_of. destruct (Z.leb_spec 0 (Z.of_nat i)); [|lia]. destruct (Z.ltb_spec (Z.of_nat i) (Z.of_nat SETTINGS_COUNT)); [|lia]. cbn [andb]. rewrite Nat2Z.id, N. reflexivity. }
  assert (forall i m, nth_error (b_settings b') i = Some m -> mp_base m = default_value i) as Bs.
  { intros i m N. pose proof (Lt i m N). specialize (Sb (Z.of_nat i) ltac:(lia)). unfold get_base_value in Sb. rewrite (So i m N) in Sb. cbn [obind] in Sb. apply Ok_inj in Sb. exact Sb. }
  assert (forall i m, nth_error (b_settings b') i = Some m -> i <> SET_OPAQUE_MULTIPLY -> mp_used m = 0) as Us.
  { intros i m N Ne. pose proof (Lt i m N). specialize (Sc (Z.of_nat i) ltac:(lia) ltac:(lia)). unfold is_constant in Sc. rewrite (So i m N) in Sc. cbn [obind] in Sc. apply Ok_inj in Sc. apply Z.eqb_eq. exact Sc. }
  assert (forall i m (P : f32 -> Prop), nth_error (b_settings b') i = Some m -> i <> SET_OPAQUE_MULTIPLY -> P (default_value i) -> yields m P) as Yc.
  { intros i m P N Ne HP data _ _ _. unfold mapping_calculate. rewrite (Us i m N Ne). cbn [Z.eqb]. exists (mp_base m). split; [reflexivity|]. rewrite (Bs i m N). exact HP. }
  assert (forall m, nth_error (b_settings b') SET_OPAQUE_MULTIPLY = Some m -> yields m (in_range (-1000) 1000)) as Yo.
  { intros m N data Ld Hp _. destruct (Cd data Ld) as (vs & Ev & Hv). pose proof (calculate_nth (M := mix64) _ _ _ _ _ Ev N) as C.
    specialize (Hv (Z.of_nat SET_OPAQUE_MULTIPLY) ltac:(vm_compute; split; congruence)). rewrite Nat2Z.id in Hv. rewrite Z.eqb_refl in Hv.
    eexists. split; [exact C|]. unfold in_range. refine (eq_ind_r (fun v : f32 => zf (-1000) v 1000) _ Hv).
    change (@nadd (sng mix64)) with fadd. change (@nofZ (sng mix64)) with f_of_Z.
    assert (zf 0 (nth INP_PRESSURE data (f_of_Z 0)) 117) as Hq by exact Hp.
    pose proof (unit_line _ Hq) as (Fl & Hl). assert (zf 0 (number (M := mix64) (documented (Z.of_nat SET_OPAQUE_MULTIPLY))) 0) as (Fn & Hn) by (apply fconst; [lia|lia|vm_compute; reflexivity]).
    apply zf_add; [exact Fn|exact Fl|split; lia|simpl in *; lra]. }
  split; [|split; [exact Ln|split; [exact Us|exact Bs]]]. split.
  - intros i m N. destruct (Nat.eq_dec i SET_OPAQUE_MULTIPLY) as [->|Ne]; [|apply (Yc i m _ N Ne); exact Logic.I].
    intros data A B C. destruct (Yo m N data A B C) as (v & Ev & _). eauto.
  - intros i P m I N. destruct (Nat.eq_dec i SET_OPAQUE_MULTIPLY) as [->|Ne]; [|apply (Yc i m _ N Ne); apply range_default; auto].
    assert (P = in_range (-1000) 1000) as ->; [|apply Yo; exact N].
    cbn in I. repeat (destruct I as [I|I]; [try (exfalso; apply (f_equal fst) in I; vm_compute in I; discriminate I); try (apply (f_equal snd) in I; symmetry; exact I)|]). destruct I.
  - intros i P m I N. rewrite (Bs i m N). apply base_default. exact I.
  - intros m N. apply (Us _ m N). vm_compute. discriminate.
  - left. intros m N. apply (Yc _ m _ N); [vm_compute; discriminate|]. apply nonpos_test. vm_compute. reflexivity.
Qed.

(** changing the base value of a setting without curves *)
Lemma base_tuned : forall ms id m (v : f32), tuned ms -> length ms = SETTINGS_COUNT -> (id < SETTINGS_COUNT)%nat -> nth_error ms id = Some m -> mp_used m = 0 ->
  id <> SET_LOCK_ALPHA -> id <> SET_PAINT_MODE ->
  (forall P, In (id, P) ranges -> P v) -> (forall P, In (id, P) base_ranges -> P v) ->
  exists ms', edit_setting ms (Z.of_nat id) (P_Mapping.SetBase (v : car (sng mix64))) = Ok ms' /\ tuned ms' /\ length ms' = SETTINGS_COUNT /\
    forall i m', nth_error ms' i = Some m' -> exists m, nth_error ms i = Some m /\ mp_used m' = mp_used m /\ (i <> id -> m' = m).
Proof.
  intros ms id m v [Ta Tr Tb Ts Tl] Ln Hid N U N1 N2 R B. unfold edit_setting.
  destruct (Z.leb_spec 0 (Z.of_nat id)); [|lia]. destruct (Z.ltb_spec (Z.of_nat id) (Z.of_nat SETTINGS_COUNT)); [|lia]. cbn [andb]. rewrite Nat2Z.id, N. cbn [apply_edit obind].
  eexists. split; [reflexivity|].
  assert (forall i m', nth_error (upd ms id (mapping_set_base m v)) i = Some m' -> (i <> id /\ nth_error ms i = Some m') \/ (i = id /\ m' = mapping_set_base m v)) as Nu.
  { intros i m' H1. rewrite nth_error_upd' in H1 by lia. destruct (Nat.eqb_spec id i) as [->|Ne]; [injection H1 as <-; auto|left; split; [lia|exact H1]]. }
  assert (forall P : f32 -> Prop, P v -> yields (mapping_set_base (K := sng mix64) m v) P) as Y.
  { intros P Pv data _ _ _. unfold mapping_calculate. cbn [mapping_set_base mp_used mp_base]. rewrite U. cbn [Z.eqb]. exists v. auto. }
  split; [|split; [rewrite upd_length; exact Ln|]].
  - split.
    + intros i m' H1. destruct (Nu i m' H1) as [(_ & H2)|(-> & ->)]; [exact (Ta i m' H2)|apply Y; exact Logic.I].
    + intros i P m' I H1. destruct (Nu i m' H1) as [(_ & H2)|(-> & ->)]; [exact (Tr i P m' I H2)|apply Y, R; exact I].
    + intros i P m' I H1. destruct (Nu i m' H1) as [(_ & H2)|(-> & ->)]; [exact (Tb i P m' I H2)|cbn [mapping_set_base mp_base]; apply B; exact I].
    + intros m' H1. destruct (Nu _ m' H1) as [(_ & H2)|(_ & H2)]; [exact (Ts _ H2)|rewrite H2; exact U].
    + destruct Tl as [Tl|Tl]; [left|right]; intros m' H1; destruct (Nu _ m' H1) as [(_ & H2)|(E & _)]; auto; exfalso; auto.
  - intros i m' H1. destruct (Nu i m' H1) as [(_ & H2)|(-> & ->)]; [exists m'; auto|]. exists m. split; [exact N|]. split; [reflexivity|]. intros C. destruct (C eq_refl).
Qed.
