(** Property C37: the limits of the dabs a brush asks for. *)
From Verif Require Import Base F32 F32Proofs Arith Color Mapping P_Mapping Settings Spectral Brush BrushProofs BrushInst BrushToy ReturnProofs StepFacts DabFrame DabSeen.
From Coq Require Import Reals Lra Floats.SpecFloat.
From Flocq Require Import Core.Core IEEE754.BinarySingleNaN.
Local Open Scope Z_scope.

(** *** The vocabulary *)
(** not a number, or a number between [lo] and [hi] *)
Definition limited (lo hi : R) (x : f32) : Prop := is_nan x = true \/ (is_finite x = true /\ (lo <= b2r x <= hi)%R).
(** a setting that depends on no input *)
Definition fixed {M : mixed} {E : env M} (b : brush E) (i : nat) (P : sng M -> Prop) : Prop := Brush.constant b i = true /\ P (base b i).

Section Common.
  Context {M : mixed} (L : mathlib M) {E : env M}.
  Lemma fixed_value : forall (b : brush E) i data vs, Brush.constant b i = true -> calculate_all (b_settings b) data = Ok vs -> nth i vs (nofZ 0) = base b i.
  Proof.
    intros b i data vs C Ev. unfold Brush.constant, base in *. destruct (nth_error (b_settings b) i) as [m|] eqn:N.
    - pose proof (calc_nth _ _ _ _ _ Ev N) as X. unfold mapping_calculate in X. unfold mapping_is_constant in C. rewrite C in X. injection X as X. symmetry. exact X.
    - apply nth_error_None in N. rewrite nth_overflow; [reflexivity|]. apply calculate_length in Ev. rewrite Ev. exact N.
  Qed.
  Lemma base_same : forall (b b' : brush E) i, b_settings b' = b_settings b -> base b' i = base b i /\ Brush.constant b' i = Brush.constant b i.
  Proof. intros b b' i H. unfold base, Brush.constant. rewrite H. auto. Qed.
  (** the settings after a step *)
  Lemma stepped_facts : forall (b b1 : brush E), stepped L (b_settings b) b1 ->
    has_states b1 /\ b_settings b1 = b_settings b /\
    (exists data, calculate_all (b_settings b) data = Ok (b_values b1)) /\
    (exists v, st b1 STATE_ACTUAL_RADIUS = clamped_radius (expf_ L v)) /\
    forall i P, fixed b i P -> P (val b1 i).
  Proof.
    intros b b1 (b0 & sp & Sh & Es & U). destruct (update_facts L b0 sp b1) as (b2 & A & F & R & C & S1 & V); [apply Sh|exact U|].
    rewrite Es in *. split; [apply F|]. split; [exact S1|]. split; [rewrite V; eauto|]. split; [eauto|].
    intros i P (Hc & HP). unfold val. rewrite V. erewrite fixed_value; [exact HP|exact Hc|exact C].
  Qed.
  Lemma flipped_st : forall (b : brush E) i, i <> STATE_FLIP -> st (flipped b) i = st b i.
  Proof. intros b i H. unfold flipped. apply st_set_other. congruence. Qed.
  Lemma flipped_val : forall (b : brush E) i, val (flipped b) i = val b i.
  Proof. reflexivity. Qed.
  Lemma rng_val : forall (b : brush E) g i, val (with_rng b g) i = val b i /\ st (with_rng b g) i = st b i.
  Proof. split; reflexivity. Qed.
  (** the radius a dab is made from *)
  Lemma made_radius : forall (b : brush E) d, made L b d ->
    exists x y r, (r = st b STATE_ACTUAL_RADIUS \/ exists v, r = clamp_radius (expf_ L v)) /\
      (dab_x d, dab_y d, dab_radius d) =
      snap_pixel L x y (fst (anti_alias r (clamp01 M (val b SET_HARDNESS)) (val b SET_ANTI_ALIASING))) (val b SET_SNAP_TO_PIXEL) /\
      exists b1, dab_position L b = Ok (x, y, b1).
  Proof.
    intros b d (x & y & b1 & op & r0 & op' & b2 & E1 & E2 & E3). exists x, y, r0. split; [|split; eauto].
    destruct (position_rng _ _ _ _ _ E1) as (g & ->). unfold dab_size in E2. cbv zeta in E2. rewrite !(proj1 (rng_val _ _ _)) in E2. destruct (truthy _).
    - apply obind_ok in E2. destruct E2 as ((r1, g1) & _ & E2). injection E2 as <- _ _. right. eauto.
    - injection E2 as <- _ _. left. reflexivity.
  Qed.
End Common.

(** *** Single precision *)
Lemma r02_val : fin (dlit 2 10) /\ fin (f_of_d (dlit 2 10)) /\ (2 / 10 <= b2r (dlit 2 10))%R /\ (2 / 10 <= b2r (f_of_d (dlit 2 10)) <= 3 / 10)%R.
Proof.
  assert (B2SF (dlit 2 10) = S754_finite false 7205759403792794 (-55)) as E1 by (vm_compute; reflexivity).
  assert (B2SF (f_of_d (dlit 2 10)) = S754_finite false 13421773 (-26)) as E2 by (vm_compute; reflexivity).
  split; [vm_compute; reflexivity|]. split; [vm_compute; reflexivity|]. rewrite <- (SF2R_B2SF 53 1024 (dlit 2 10)), <- (SF2R_B2SF 24 128 (f_of_d (dlit 2 10))), E1, E2.
  unfold SF2R, F2R. cbn [Fnum Fexp cond_Zopp]. change (bpow radix2 (-55)) with (/ 36028797018963968)%R. change (bpow radix2 (-26)) with (/ 67108864)%R. lra.
Qed.
Lemma big127 : (4096 <= bpow radix2 127)%R.
Proof. change 4096%R with (bpow radix2 12). apply bpow_le. lia. Qed.
Lemma thousand : b2r (f_of_Z 1000) = 1000%R /\ fin (f_of_Z 1000).
Proof. apply (f_of_Z_exact 1000). lia. Qed.

Lemma clamped_limited : forall r : f32, limited (2 / 10) 1000 (clamped_radius (M := mix64) r).
Proof.
  intros r. destruct r02_val as (F1 & F2 & V1 & V2). destruct thousand as (VT & FT).
  unfold clamped_radius. cbv zeta. change (@nlt (dbl mix64)) with dlt. change (@nlt (sng mix64)) with flt. change (@wid mix64) with d_of_f.
  change (@nar mix64 (ACTUAL_RADIUS_MIN (M := mix64))) with (f_of_d (dlit 2 10)). change (ACTUAL_RADIUS_MIN (M := mix64)) with (dlit 2 10). change (@nofZ (sng mix64) 1000) with (f_of_Z 1000).
  assert (T : flt (f_of_Z 1000) (f_of_d (dlit 2 10)) = false) by (vm_compute; reflexivity).
  destruct (is_finite r) eqn:F.
  - destruct (d_of_f_exact r F) as (Vd & Fd). rewrite (dlt_spec (d_of_f r)), Vd by auto. case Rlt_bool_spec; intros C1.
    + rewrite T. right. split; [exact F2|lra].
    + rewrite flt_spec, VT by auto. case Rlt_bool_spec; intros C2; [right; split; [exact FT|rewrite VT; lra]|]. right. split; [exact F|lra].
  - destruct r as [s| [|] | |s m e p]; try discriminate F.
    + change (dlt (d_of_f (B754_infinity true)) (dlit 2 10)) with true. cbv iota. rewrite T. right. split; [exact F2|lra].
    + change (dlt (d_of_f (B754_infinity false)) (dlit 2 10)) with false. cbv iota. change (flt (f_of_Z 1000) (B754_infinity false)) with true. cbv iota. right. split; [exact FT|rewrite VT; lra].
    + change (dlt (d_of_f B754_nan) (dlit 2 10)) with false. cbv iota. left. reflexivity.
Qed.
Lemma clamp_limited : forall r : f32, limited (2 / 10) 1000 (clamp_radius (M := mix64) r).
Proof.
  intros r. destruct r02_val as (F1 & F2 & V1 & V2). destruct thousand as (VT & FT).
  unfold clamp_radius. change (@nlt (dbl mix64)) with dlt. change (@nlt (sng mix64)) with flt. change (@wid mix64) with d_of_f. change (@nar mix64) with f_of_d.
  change (ACTUAL_RADIUS_MIN (M := mix64)) with (dlit 2 10). change (@nofZ (sng mix64) 1000) with (f_of_Z 1000). change (@nofZ (dbl mix64) 1000) with (d_of_Z 1000).
  assert (limited (2 / 10) 1000 (f_of_d (d_of_Z 1000))) as T.
  { assert (f_of_d (d_of_Z 1000) = f_of_Z 1000) as -> by (apply B2SF_inj; vm_compute; reflexivity). right. split; [exact FT|rewrite VT; lra]. }
  destruct (is_finite r) eqn:F.
  - destruct (d_of_f_exact r F) as (Vd & Fd). rewrite flt_spec, VT by auto. case Rlt_bool_spec; intros C2; [exact T|].
    rewrite (dlt_spec (d_of_f r)), Vd by auto. case Rlt_bool_spec; intros C1.
    + right. split; [exact F2|lra].
    + destruct (f_of_d_spec (d_of_f r) Fd) as (Vf & Ff). { rewrite Vd. pose proof big127. rewrite Rabs_pos_eq; lra. }
      right. split; [exact Ff|]. rewrite Vf, Vd, rnd32_id by apply rep32_b2r. lra.
  - destruct r as [s| [|] | |s m e p]; try discriminate F.
    + change (flt (f_of_Z 1000) (B754_infinity true)) with false. cbv iota. change (dlt (d_of_f (B754_infinity true)) (dlit 2 10)) with true. cbv iota. right. split; [exact F2|lra].
    + change (flt (f_of_Z 1000) (B754_infinity false)) with true. cbv iota. exact T.
    + change (flt (f_of_Z 1000) B754_nan) with false. change (dlt (d_of_f B754_nan) (dlit 2 10)) with false. cbv iota. left. reflexivity.
Qed.

Definition not_positive (v : f32) : Prop := fle v f0 = true.
Definition zero (v : f32) : Prop := feq v f0 = true.

Lemma clamp01_limited : forall v : f32, limited 0 1 (clamp01 mix64 v).
Proof.
  intros v. unfold clamp01. change (@nlt (sng mix64)) with flt. change (@nofZ (sng mix64) 1) with (f_of_Z 1). change (@nofZ (sng mix64) 0) with (f_of_Z 0).
  destruct (f_of_Z_exact 1) as (V1 & F1); [lia|]. destruct (f_of_Z_exact 0) as (V0 & F0); [lia|]. destruct (is_finite v) eqn:F.
  - rewrite (flt_spec (f_of_Z 1)), V1 by auto. case Rlt_bool_spec; intros C1; [right; split; [exact F1|rewrite V1; lra]|].
    rewrite flt_spec, V0 by auto. case Rlt_bool_spec; intros C2; right; (split; [assumption|rewrite ?V0; lra]).
  - destruct v as [s| [|] | |s m e p]; try discriminate F.
    + change (flt (f_of_Z 1) (B754_infinity true)) with false. change (flt (B754_infinity true) (f_of_Z 0)) with true. cbv iota. right. split; [exact F0|rewrite V0; lra].
    + change (flt (f_of_Z 1) (B754_infinity false)) with true. cbv iota. right. split; [exact F1|rewrite V1; lra].
    + left. reflexivity.
Qed.

(** comparing with a value that is not positive *)
Lemma not_below : forall c m : f32, not_positive m -> (is_nan c = true \/ (fin c /\ (0 <= b2r c)%R)) -> flt c m = false.
Proof.
  intros c m H [N|(F & V)].
  - destruct c; try discriminate N. reflexivity.
  - destruct (is_finite m) eqn:Fm.
    + unfold not_positive in H. destruct f0_val as (V0 & F0). rewrite fle_spec, V0 in H by auto. rewrite flt_spec by auto. revert H. case Rle_bool_spec; intros C H; [|discriminate H].
      apply Rlt_bool_false. lra.
    + destruct m as [s| [|] | |s mm e p]; try discriminate Fm; [|vm_compute in H; discriminate H|vm_compute in H; discriminate H].
      destruct c as [s| [|] | |s mm e p]; try discriminate F; reflexivity.
Qed.
Lemma not_above : forall m : f32, not_positive m -> dlt (d_of_Z 0) (d_of_f m) = false.
Proof.
  intros m H. destruct (is_finite m) eqn:Fm.
  - unfold not_positive in H. destruct f0_val as (V0 & F0). rewrite fle_spec, V0 in H by auto. destruct (d_of_f_exact m Fm) as (Vd & Fd). destruct (d_of_Z_exact 0) as (Z0 & FZ); [lia|].
    rewrite dlt_spec, Vd, Z0 by auto. revert H. case Rle_bool_spec; intros C H; [|discriminate H]. apply Rlt_bool_false. lra.
  - destruct m as [s| [|] | |s mm e p]; try discriminate Fm; try reflexivity. unfold not_positive in H. vm_compute in H. discriminate H.
Qed.

Lemma anti_alias_off : forall r h m : f32, limited (2 / 10) 1000 r -> limited 0 1 h -> not_positive m -> fst (anti_alias (M := mix64) r h m) = r.
Proof.
  intros r h m Hr Hh Hm. unfold anti_alias. cbv zeta. change (@nlt (sng mix64)) with flt. change (@nar mix64) with f_of_d. change (@wid mix64) with d_of_f.
  change (@nmul (dbl mix64)) with dmul. change (@nsub (dbl mix64)) with dsub. change (@nofZ (dbl mix64) 1) with (d_of_Z 1).
  rewrite not_below; [reflexivity|exact Hm|].
  destruct Hr as [Nr|(Fr & Vr)]. { left. destruct r; try discriminate Nr. reflexivity. }
  destruct Hh as [Nh|(Fh & Vh)]. { left. destruct h; try discriminate Nh. generalize (d_of_f r). intros q. change (dsub (d_of_Z 1) (d_of_f B754_nan)) with (B754_nan : f64). destruct q; reflexivity. }
  right. destruct (d_of_f_exact r Fr) as (Vd & Fd). destruct (d_of_f_exact h Fh) as (Wd & Gd). destruct (d_of_Z_exact 1) as (V1 & F1); [lia|].
  assert (4096 <= bpow radix2 1023)%R as B by (change 4096%R with (bpow radix2 12); apply bpow_le; lia).
  destruct (dsub_spec (d_of_Z 1) (d_of_f h) F1 Gd) as (Vs & Fs). { rewrite V1, Wd. apply Rabs_le. lra. }
  assert (0 <= b2r (dsub (d_of_Z 1) (d_of_f h)) <= 1)%R as Bs.
  { rewrite Vs, V1, Wd. split; [apply rnd64_ge_r; [apply (rep64_IZR 0); lia|lra]|apply rnd64_le_r; [apply (rep64_IZR 1); lia|lra]]. }
  set (q := dsub (d_of_Z 1) (d_of_f h)) in *.
  assert (0 <= b2r (d_of_f r) * b2r q <= 1000)%R as Bp by (rewrite Vd; nra).
  destruct (dmul_spec (d_of_f r) q Fd Fs) as (Vm & Fm). { apply Rabs_le. lra. }
  assert (0 <= b2r (dmul (d_of_f r) q) <= 1000)%R as Bm.
  { rewrite Vm. split; [apply rnd64_ge_r; [apply (rep64_IZR 0); lia|lra]|apply rnd64_le_r; [apply (rep64_IZR 1000); lia|lra]]. }
  pose proof big127. destruct (f_of_d_spec (dmul (d_of_f r) q) Fm) as (Vf & Ff). { apply Rabs_le. lra. }
  split; [exact Ff|]. rewrite Vf. apply rnd32_ge_r; [apply (rep32_IZR 0); lia|lra].
Qed.
Lemma snap_off : forall L (x y r m : f32), not_positive m -> snap_pixel (M := mix64) L x y r m = (x, y, r).
Proof.
  intros L x y r m H. unfold snap_pixel. change (@nlt (dbl mix64)) with dlt. change (@wid mix64) with d_of_f. change (@nofZ (dbl mix64) 0) with (d_of_Z 0).
  rewrite (not_above m H). reflexivity.
Qed.

(** Theorem: as long as anti-aliasing and snapping to pixels are switched off, the
    radius of every dab an event draws is not a number or between 0.2 and 1000, for
    every mathematical library, every surface, every other setting and every input.
    Missing for the full claim: switched on, it is false, see [C37_refuted]. *)
Theorem C37_radius_partial : forall (L : mathlib mix64) (E : env mix64) n (b : brush E) w e a b' w', reachable L b ->
  fixed b SET_ANTI_ALIASING not_positive -> fixed b SET_SNAP_TO_PIXEL not_positive ->
  stroke_to L n b w e = Ok (Some (a, b', w')) ->
  exists ds, drew (w_surf w) ds (w_surf w') /\ Forall (fun d : dab mix64 => limited (2 / 10) 1000 (dab_radius d)) ds.
Proof.
  intros L E n b w e a b' w' R HA HS H. destruct (stroke_drew L n b w e a b' w' (reachable_shape L b R) H) as (ds & D & Hd). exists ds. split; [exact D|].
  eapply Forall_impl; [|exact Hd]. intros d (b1 & St & Md). destruct (stepped_facts L b b1 St) as (_ & _ & _ & (v & Er) & K).
  apply made_radius in Md. destruct Md as (x & y & r & Hr & Ed & _).
  assert (limited (2 / 10) 1000 r) as Lr.
  { destruct Hr as [->|(v' & ->)]; [|apply clamp_limited]. rewrite flipped_st by discriminate. rewrite Er. apply clamped_limited. }
  rewrite anti_alias_off in Ed; [|exact Lr|apply clamp01_limited|apply (K _ _ HA)]. rewrite snap_off in Ed by apply (K _ _ HS).
  injection Ed as _ _ ->. exact Lr.
Qed.

(** The directional offset of a dab: with the offsets by speed and by random and
    snapping off, a dab lies at the slow pen position moved by two numbers that
    are not a number or at most 3240.  ([negf_] is the unary minus of C.) *)
Lemma offset_limited : forall v : f32, limited (-3240) 3240 (if flt (f_of_Z 3240) v then f_of_Z 3240 else if flt v (fopp (f_of_Z 3240)) then fopp (f_of_Z 3240) else v).
Proof.
  intros v. destruct (f_of_Z_exact 3240) as (V & F); [lia|]. destruct (fopp_spec (f_of_Z 3240)) as (Vo & Fo). specialize (Fo F). rewrite V in Vo. destruct (is_finite v) eqn:Fv.
  - rewrite (flt_spec (f_of_Z 3240)), V by auto. case Rlt_bool_spec; intros C1; [right; split; [exact F|rewrite V; lra]|].
    rewrite flt_spec, Vo by auto. case Rlt_bool_spec; intros C2; right; (split; [assumption|rewrite ?Vo; lra]).
  - destruct v as [s| [|] | |s m e p]; try discriminate Fv.
    + change (flt (f_of_Z 3240) (B754_infinity true)) with false. change (flt (B754_infinity true) (fopp (f_of_Z 3240))) with true. cbv iota. right. split; [exact Fo|rewrite Vo; lra].
    + change (flt (f_of_Z 3240) (B754_infinity false)) with true. cbv iota. right. split; [exact F|rewrite V; lra].
    + left. reflexivity.
Qed.
Lemma directional_shape : forall (L : mathlib mix64) (E : env mix64) (b : brush E) r fl,
  let clamp (x : f32) := if flt (f_of_Z 3240) x then f_of_Z 3240 else if flt x (negf_ L (f_of_Z 3240)) then negf_ L (f_of_Z 3240) else x in
  directional_offsets L b r fl = (f_of_Z 0, f_of_Z 0) \/ exists u v, directional_offsets L b r fl = (clamp u, clamp v).
Proof.
  intros L E b r fl clamp. unfold directional_offsets.
  match goal with |- context [negb ?c] => case (negb c) end; [left; reflexivity|right]. eexists _, _. unfold clamp. reflexivity.
Qed.
Lemma directional_limited : forall (L : mathlib mix64) (E : env mix64) (b : brush E) r fl, (forall x, negf_ L x = fopp x) ->
  limited (-3240) 3240 (fst (directional_offsets L b r fl)) /\ limited (-3240) 3240 (snd (directional_offsets L b r fl)).
Proof.
  intros L E b r fl NG. destruct (directional_shape L E b r fl) as [->|(u & v & ->)].
  - cbn [fst snd]. destruct (f_of_Z_exact 0) as (V & F); [lia|]. split; right; (split; [exact F|rewrite V; lra]).
  - cbn [fst snd]. rewrite !NG. split; apply offset_limited.
Qed.
Lemma zero_off : forall v : f32, zero v -> truthy (v : sng mix64) = false.
Proof. intros v H. unfold truthy. change (@neqb (sng mix64)) with feq. change (@nofZ (sng mix64) 0) with f0. unfold zero in H. rewrite H. reflexivity. Qed.

Theorem C37_offset_partial : forall (L : mathlib mix64) (E : env mix64) n (b : brush E) w e a b' w', (forall x, negf_ L x = fopp x) -> reachable L b ->
  fixed b SET_OFFSET_BY_SPEED zero -> fixed b SET_OFFSET_BY_RANDOM zero -> fixed b SET_SNAP_TO_PIXEL not_positive ->
  stroke_to L n b w e = Ok (Some (a, b', w')) ->
  exists ds, drew (w_surf w) ds (w_surf w') /\
    Forall (fun d : dab mix64 => exists (b1 : brush E) (ox oy : f32), stepped L (b_settings b) b1 /\ limited (-3240) 3240 ox /\ limited (-3240) 3240 oy /\
                     dab_x d = fadd (st b1 STATE_ACTUAL_X) ox /\ dab_y d = fadd (st b1 STATE_ACTUAL_Y) oy) ds.
Proof.
  intros L E n b w e a b' w' NG R HV HR HS H. destruct (stroke_drew L n b w e a b' w' (reachable_shape L b R) H) as (ds & D & Hd). exists ds. split; [exact D|].
  eapply Forall_impl; [|exact Hd]. intros d (b1 & St & Md). destruct (stepped_facts L b b1 St) as (_ & _ & _ & _ & K). exists b1.
  apply made_radius in Md. destruct Md as (x & y & r & _ & Ed & b2 & Ep). rewrite snap_off in Ed by apply (K _ _ HS). injection Ed as -> -> _.
  unfold dab_position in Ep. cbv zeta in Ep. apply obind_ok in Ep. destruct Ep as (fl & _ & Ep). rewrite !flipped_val in Ep.
  rewrite (zero_off _ (K _ _ HR)), (zero_off _ (K _ _ HV)) in Ep. apply Ok_inj in Ep.
  pose proof (directional_limited L E (flipped b1) (expf_ L (base (flipped b1) SET_RADIUS_LOGARITHMIC)) fl NG) as (B1 & B2).
  eexists _, _. split; [exact St|]. split; [exact B1|]. split; [exact B2|]. rewrite !flipped_st in Ep by discriminate.
  split; [exact (eq_sym (f_equal (fun q => fst (fst q)) Ep))|exact (eq_sym (f_equal (fun q => snd (fst q)) Ep))].
Qed.

(** Refuted: a brush whose anti-aliasing is 10^-8 - inside the documented range
    0..5 - asks for a dab of infinite radius, because the hardness it computes is
    rounded to 1. *)
Definition fine_edge : calls :=
  [set_base SET_OPAQUE f1; set_base SET_OPAQUE_MULTIPLY f1; set_base SET_DABS_PER_ACTUAL_RADIUS f1; set_base SET_HARDNESS f1;
   set_base SET_ANTI_ALIASING (flit 1 100000000); CStroke (pen 0 0 0 10); CStroke (pen 0 0 50 10); CStroke (pen 10 0 50 10)].
Definition infinite (x : f32) : bool := match x with B754_infinity _ => true | _ => false end.
Theorem C37_infinite_refuted : exists (b : brush toy) (w : world toy), reachable toy_lib b /\ session 0 fine_edge = Ok (Some (b, w)) /\
  exists d : dab mix64, In d (w_surf w) /\ infinite (dab_radius d) = true.
Proof.
  destruct (after_ok 0 fine_edge (fun (b : brush toy) (w : world toy) => existsb (fun d : dab mix64 => infinite (dab_radius d)) (w_surf w))) as (b & w & Es & H); [vm_compute; reflexivity|].
  exists b, w. split; [eapply session_reachable; [|exact Es]; lia|]. split; [exact Es|]. apply existsb_exists in H. exact H.
Qed.

(** What becomes of such a dab: the tiled surface converts an infinite number of
    tiles to int, which C leaves undefined - whenever it does not ignore the dab. *)
From Verif Require Dab.
Lemma infinite_tiles : forall x y : f32, Dab.dab_tiles x y (B754_infinity false) = UB.
Proof. intros x y. unfold Dab.dab_tiles. change (fadd (B754_infinity false) f1) with (B754_infinity false : f32). destruct x as [s| [|] | |s m e p]; reflexivity. Qed.
Theorem C37_infinite_undefined : forall G ts d o, Dab.d_radius d = B754_infinity false -> Dab.prepare_op d = Ok (Some o) -> Dab.draw_dab G ts d = UB.
Proof.
  intros G ts d o Hr Hp. unfold Dab.draw_dab, Dab.draw_dab_internal. rewrite Hp. cbn [obind]. rewrite Hr, infinite_tiles. reflexivity.
Qed.
(** a full round dab of infinite radius is not ignored *)
Definition endless_dab : Dab.dab := Dab.mkDab f0 f0 (B754_infinity false) f0 f0 f0 f1 f1 f0 f1 f1 f0 f0 f0 f0 f0 f0.
Example C37_infinite_case : exists o, Dab.prepare_op endless_dab = Ok (Some o).
Proof.
  assert (match Dab.prepare_op endless_dab with Ok (Some _) => true | _ => false end = true) as H by (vm_compute; reflexivity).
  destruct (Dab.prepare_op endless_dab) as [[o|]| |]; try discriminate H. exists o. reflexivity.
Qed.

(** A case for the positive theorems: a brush that paints, with the next event
    drawing dabs. *)
Definition plain_edge : calls :=
  [set_base SET_OPAQUE f1; set_base SET_OPAQUE_MULTIPLY f1; set_base SET_DABS_PER_ACTUAL_RADIUS f1; set_base SET_HARDNESS f1;
   CStroke (pen 0 0 0 10); CStroke (pen 0 0 50 10)].
Example C37_case : exists (b : brush toy) (w : world toy), reachable toy_lib b /\
  fixed b SET_ANTI_ALIASING not_positive /\ fixed b SET_SNAP_TO_PIXEL not_positive /\ fixed b SET_OFFSET_BY_SPEED zero /\ fixed b SET_OFFSET_BY_RANDOM zero /\
  (forall x, negf_ toy_lib x = fopp x) /\
  exists a b' w', stroke_to toy_lib 20 b w (pen 10 0 50 10) = Ok (Some (a, b', w')) /\ length (w_surf w') = 10%nat.
Proof.
  set (off := fun (b : brush toy) i (P : f32 -> bool) => Brush.constant b i && P (base b i)).
  destruct (after_ok 0 plain_edge (fun (b : brush toy) (w : world toy) =>
    (off b SET_ANTI_ALIASING (fun v => fle v f0) && off b SET_SNAP_TO_PIXEL (fun v => fle v f0) && off b SET_OFFSET_BY_SPEED (fun v => feq v f0) && off b SET_OFFSET_BY_RANDOM (fun v => feq v f0)) &&
    match stroke_to toy_lib 20 b w (pen 10 0 50 10) with Ok (Some (_, _, w')) => Nat.eqb (length (w_surf w')) 10 | _ => false end)) as (b & w & Es & H); [vm_compute; reflexivity|].
  apply andb_prop in H. destruct H as (H & H5). apply andb_prop in H. destruct H as (H & H4). apply andb_prop in H. destruct H as (H & H3). apply andb_prop in H. destruct H as (H1 & H2).
  exists b, w. split; [eapply session_reachable; [|exact Es]; lia|].
  split; [apply andb_prop; exact H1|]. split; [apply andb_prop; exact H2|]. split; [apply andb_prop; exact H3|]. split; [apply andb_prop; exact H4|]. split; [reflexivity|].
  destruct (stroke_to toy_lib 20 b w (pen 10 0 50 10)) as [[((a, b'), w')|]| |]; try discriminate H5. apply Nat.eqb_eq in H5. exists a, b', w'. auto.
Qed.

Print Assumptions C37_radius_partial.
Print Assumptions C37_offset_partial.
Print Assumptions C37_infinite_refuted.
