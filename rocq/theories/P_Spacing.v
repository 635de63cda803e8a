(** Property C34: how many dabs a motion event paints and where, in exact real
    arithmetic (the "partial": with C floats the loop may never end, see
    P_Endless.v). *)
From Verif Require Import Base F32 F32Proofs Arith Color Mapping P_Mapping Settings Spectral Brush BrushProofs BrushInst ReturnProofs StepFacts StrokeExact RealToy P_Reset.
From Coq Require Import Reals Lra Sorted.
From Flocq Require Import Core.Core.
Local Open Scope Z_scope.

Section Spacing.
  Context (L : mathlib mixR) (RL : real_library L) {E : env mixR}.
  Notation brush := (brush E).
  Local Open Scope R_scope.

  (** *** The vocabulary *)
  Definition pen_x (b : brush) : R := st b STATE_X.
  Definition pen_y (b : brush) : R := st b STATE_Y.
  (** the fraction of a dab that is due: state "partial_dabs" *)
  Definition remainder (b : brush) : R := st b STATE_PARTIAL_DABS.
  (** the pen is at the fraction [l] of the straight line from [b0] to (x, y) *)
  Definition on_line (b0 : brush) (x y l : R) (b : brush) : Prop :=
    pen_x b = pen_x b0 + l * (x - pen_x b0) /\ pen_y b = pen_y b0 + l * (y - pen_y b0).

  (** Theorem: painting towards a point leaves the pen exactly there; the dabs
      ([p_log], latest first) are made on the straight line to it, in order; each
      accounts for at most one unit of demand, all demand except the remainder,
      which is in [0,1), is turned into dabs. *)
  Theorem C34_walk_partial : forall n (b : brush) w (g : target mixR) (t : R) p a b', has_states b -> 0 <= remainder b < 1 ->
    paint_dabs L n b w g (t : dbl mixR) = Ok (Some p) -> paint_rest L p g (t : dbl mixR) = Ok (a, b') ->
    pen_x b' = g_x g /\ pen_y b' = g_y g /\ 0 <= remainder b' < 1 /\
    (exists ls, Forall2 (fun l e => on_line b (g_x g) (g_y g) l (snd e)) ls (p_log p) /\ Sorted (fun u v => v <= u) ls /\ Forall (fun l => 0 <= l <= 1) ls) /\
    Forall (fun e => 0 < ddab (fst e) <= 1) (p_log p) /\
    INR (length (p_log p)) + remainder b' = remainder b + total ddab (p_log p) + ddab (last_step p g).
  Proof.
    intros n b w g t p a b' Hs Hr Hp Hq. destruct (paint_walk L n b w g t p Hs Hr Hp) as (lam & [Ws Wm Wt Wc Wtm Wd Wdt (ls & Wl & Wo & Wleft & F2 & So & Fl)] & Lt).
    destruct (rest_walk L p g t a b' Ws Hq) as (_ & X & Y & P). unfold pen_x, pen_y, remainder, stR in *.
    split; [exact X|]. split; [exact Y|]. split; [rewrite P; lra|]. split.
    - exists ls. split; [exact F2|]. split; [inversion So; auto|exact Fl].
    - split; [exact Wd|]. rewrite P. unfold ddab at 2. cbn [last_step step_towards sp_ddab]. lra.
  Qed.

  (** *** Constant settings: the number of dabs is the demand *)
  (** A setting without dynamics whose value is in force. *)
  Definition in_force (b : brush) (setting state : nat) : Prop := Brush.constant b setting = true /\ (st b state : R) = base b setting.
  (** The brush radius and the dab densities are constant and in force, the
      dab is round. *)
  Definition steady (b : brush) : Prop :=
    in_force b SET_DABS_PER_ACTUAL_RADIUS STATE_DABS_PER_ACTUAL_RADIUS /\
    in_force b SET_DABS_PER_BASIC_RADIUS STATE_DABS_PER_BASIC_RADIUS /\
    in_force b SET_DABS_PER_SECOND STATE_DABS_PER_SECOND /\
    in_force b SET_ELLIPTICAL_DAB_RATIO STATE_ACTUAL_ELLIPTICAL_DAB_RATIO /\ (base b SET_ELLIPTICAL_DAB_RATIO : R) <= 1 /\
    Brush.constant b SET_RADIUS_LOGARITHMIC = true /\
    (st b STATE_ACTUAL_RADIUS : R) = Rmin 1000 (Rmax (2 / 10) (exp (base b SET_RADIUS_LOGARITHMIC))).
  Definition wanted (b : brush) (x y t : R) : R :=
    let r := Rmin 1000 (Rmax (2 / 10) (exp (base b SET_RADIUS_LOGARITHMIC))) in
    let dist := sqrt ((x - pen_x b) * (x - pen_x b) + (y - pen_y b) * (y - pen_y b)) in
    Rmax 0 (dist / r * base b SET_DABS_PER_ACTUAL_RADIUS + dist / r * base b SET_DABS_PER_BASIC_RADIUS + t * base b SET_DABS_PER_SECOND).

  Lemma clamp_is : forall b : brush, (clamp_radius (expf_ L (base b SET_RADIUS_LOGARITHMIC)) : R) = Rmin 1000 (Rmax (2 / 10) (exp (base b SET_RADIUS_LOGARITHMIC))).
  Proof.
    intros b. unfold clamp_radius, ACTUAL_RADIUS_MIN. cbn [mixR wid nar dec nlt nofZ sng dbl numR car]. rewrite (rl_exp L RL).
    unfold Rmin, Rmax. destruct (Rlt_bool_spec 1000 (exp (base b SET_RADIUS_LOGARITHMIC))); destruct (Rle_dec (2 / 10) (exp (base b SET_RADIUS_LOGARITHMIC))); repeat destruct (Rle_dec _ _); try destruct (Rlt_bool_spec (exp (base b SET_RADIUS_LOGARITHMIC)) (2 / 10)); lra.
  Qed.
  Lemma clamped_is : forall v : R, (clamped_radius (M := mixR) (expf_ L v) : R) = Rmin 1000 (Rmax (2 / 10) (exp v)).
  Proof.
    intros v. unfold clamped_radius, ACTUAL_RADIUS_MIN. cbn [mixR wid nar dec nlt nofZ sng dbl numR car]. rewrite (rl_exp L RL).
    unfold Rmin, Rmax. destruct (Rlt_bool_spec (exp v) (2 / 10)); destruct (Rle_dec (2 / 10) (exp v)); try lra;
      repeat match goal with |- context [Rlt_bool ?a ?b] => destruct (Rlt_bool_spec a b) end; repeat destruct (Rle_dec _ _); lra.
  Qed.
  Lemma radius_range : forall v : R, 2 / 10 <= Rmin 1000 (Rmax (2 / 10) v) <= 1000.
  Proof. intros v. unfold Rmin, Rmax. destruct (Rle_dec (2 / 10) v); destruct (Rle_dec _ _); lra. Qed.

  (** what a step puts into the states *)
  Lemma update_density : forall (b : brush) sp b1, has_states b -> update_states L b sp = Ok b1 ->
    exists vs data, calculate_all (b_settings b) data = Ok vs /\
    (st b1 STATE_DABS_PER_BASIC_RADIUS : R) = nth SET_DABS_PER_BASIC_RADIUS vs 0 /\
    (st b1 STATE_DABS_PER_ACTUAL_RADIUS : R) = nth SET_DABS_PER_ACTUAL_RADIUS vs 0 /\
    (st b1 STATE_DABS_PER_SECOND : R) = nth SET_DABS_PER_SECOND vs 0 /\
    (st b1 STATE_ACTUAL_ELLIPTICAL_DAB_RATIO : R) = nth SET_ELLIPTICAL_DAB_RATIO vs 0 /\
    (st b1 STATE_ACTUAL_RADIUS : R) = Rmin 1000 (Rmax (2 / 10) (exp (nth SET_RADIUS_LOGARITHMIC vs 0))).
  Proof.
    intros b sp b1 Hs U. destruct (update_facts L _ _ _ Hs U) as (b0 & _ & (_ & _ & (A1 & A2 & A3 & A4) & _) & R1 & Ev & _).
    exists (b_values b0). eexists. split; [exact Ev|]. unfold val in *. rewrite A1, A2, A3, A4, R1. split; [reflexivity|]. split; [reflexivity|]. split; [reflexivity|]. split; [reflexivity|].
    apply clamped_is.
  Qed.
  Lemma constant_value : forall (b : brush) i data vs, Brush.constant b i = true -> calculate_all (b_settings b) data = Ok vs -> (nth i vs (0 : sng mixR) : R) = base b i.
  Proof.
    intros b i data vs C Ev. unfold Brush.constant, base in *. destruct (nth_error (b_settings b) i) as [m|] eqn:N.
    - pose proof (calc_nth _ _ _ _ _ Ev N) as X. unfold mapping_calculate in X. unfold mapping_is_constant in C. rewrite C in X. injection X as X. symmetry. exact X.
    - apply nth_error_None in N. rewrite nth_overflow; [reflexivity|]. apply calculate_length in Ev. rewrite Ev. exact N.
  Qed.

  Lemma steady_update : forall b sp b1 b2 : _, steady b -> update_states L b sp = Ok b1 -> has_states b -> has_states b2 -> same_states_but_flip b1 b2 -> b_settings b2 = b_settings b -> steady b2.
  Proof.
    intros b sp b1 b2 (S1 & S2 & S3 & S4 & S5 & S6 & S7) U Hs H2 Sm Es. destruct (update_density b sp b1 Hs U) as (vs & data & Ev & D1 & D2 & D3 & D4 & D5).
    unfold steady, in_force, Brush.constant, base in *. rewrite Es. rewrite !Sm by (vm_compute; first [lia|discriminate]).
    rewrite D1, D2, D3, D4, D5. rewrite !(constant_value b _ data vs) by (auto; unfold Brush.constant; apply S1 || apply S2 || apply S3 || apply S4).
    unfold base. tauto.
  Qed.
  Lemma steady_count : forall (b : brush) (x y t : R) n b', steady b -> has_states b -> count_dabs_to L b x y t = (n, b') -> steady b'.
  Proof.
    intros b x y t n b' S Hs Cn. destruct (count_facts L _ _ _ _ _ _ Hs Cn) as (_ & _ & O). destruct (count_demand L RL _ _ _ _ _ _ Hs Cn) as (_ & R & Es).
    unfold steady, in_force, Brush.constant, base, stR, radius_now in *. rewrite Es, R, !O by discriminate. destruct S as (S1 & S2 & S3 & S4 & S5 & S6 & S7). unfold stR. rewrite S7.
    rewrite Req_bool_false; [tauto|]. match goal with |- context [Rmax (2 / 10) ?v] => pose proof (radius_range v) end. lra.
  Qed.
  Lemma steady_demand : forall (b0 b : brush) (x y t l : R) n b', steady b0 -> steady b -> b_settings b = b_settings b0 -> has_states b -> 0 <= l <= 1 ->
    on_line b0 x y l b -> count_dabs_to L b x y ((1 - l) * t) = (n, b') -> (n : R) = (1 - l) * wanted b0 x y t.
  Proof.
    intros b0 b x y t l n b' S0 S Es Hs Hl (X & Y) Cn. destruct (count_demand L RL _ _ _ _ _ _ Hs Cn) as (-> & _ & _).
    unfold wanted. cbv zeta. unfold demand_at.
    replace (x - stR b STATE_X) with ((1 - l) * (x - pen_x b0)) by (unfold pen_x, stR in *; rewrite X; ring).
    replace (y - stR b STATE_Y) with ((1 - l) * (y - pen_y b0)) by (unfold pen_y, stR in *; rewrite Y; ring).
    rewrite demand_scale by lra. destruct S as ((_ & S1) & (_ & S2) & (_ & S3) & (_ & S4) & S5 & _ & S7). unfold stR. rewrite S1, S2, S3, S4. unfold radius_now, base_radius, stR. rewrite S7, clamp_is.
    assert (forall i, base b i = base b0 i) as Eb by (intros i; unfold base; rewrite Es; reflexivity). rewrite !Eb in *.
    rewrite Req_bool_false by (pose proof (radius_range (exp (base b0 SET_RADIUS_LOGARITHMIC))); lra).
    unfold demand, length_of. rewrite Rlt_bool_false by exact S5.
    match goal with |- Rmax 0 (_ * ?q) = _ * Rmax 0 ?q2 => change q2 with q; generalize q; intros q' end.
    unfold Rmax. destruct (Rle_dec 0 q'); destruct (Rle_dec 0 ((1 - l) * q')); try lra.
    - exfalso. apply n. apply Rmult_le_pos; lra.
    - assert ((1 - l) * q' <= 0) by (rewrite <- (Rmult_0_r (1 - l)); apply Rmult_le_compat_l; lra). lra.
  Qed.

  (** Theorem: with a steady round brush the number of dabs and the remainder add
      up to the old remainder plus the demand: distance over radius times the two
      densities, plus time times the third. *)
  Theorem C34_count_partial : forall n (b : brush) w (g : target mixR) (t : R) p a b', has_states b -> 0 <= remainder b < 1 -> steady b ->
    paint_dabs L n b w g (t : dbl mixR) = Ok (Some p) -> paint_rest L p g (t : dbl mixR) = Ok (a, b') ->
    INR (length (p_log p)) + remainder b' = remainder b + wanted b (g_x g) (g_y g) t.
  Proof.
    intros n b w g t p a b' Hs Hr S Hp Hq. destruct (paint_walk L n b w g t p Hs Hr Hp) as (lam & W & _). destruct (rest_walk L p g t a b' (wk_states _ _ _ _ _ _ _ W) Hq) as (_ & _ & _ & P).
    unfold paint_dabs in Hp. cbv zeta in Hp. destruct (count_dabs_to _ _ _ _ _) as [todo b1] eqn:Ec.
    pose proof (start_walk L b w g t todo b1 Hs Hr Ec) as W0. destruct (count_demand L RL _ _ _ _ _ _ Hs Ec) as (_ & _ & Es).
    assert (on_line b (g_x g) (g_y g) 0 b) as O0 by (split; ring).
    destruct (dabs_exact L (fun b' => steady b' /\ b_settings b' = b_settings b) (wanted b (g_x g) (g_y g) t) (stR b STATE_X) (stR b STATE_Y) (stR b STATE_PARTIAL_DABS) t g) with (k := n) (lam := 0) (p := mkProgress b1 w None (t : dbl mixR) (st b STATE_PARTIAL_DABS) todo []) (p' := p) as [A _].
    - intros b0 sp b2 b3 [I1 I2] U H0 H3 Sm E3. split; [eapply steady_update; eauto|congruence].
    - intros b0 x y u m b2 [I1 I2] H0 Cn. split; [eapply steady_count; eauto|]. destruct (count_demand L RL _ _ _ _ _ _ H0 Cn) as (_ & _ & ->). exact I2.
    - intros b0 l m b2 [I1 I2] H0 Hl O Cn. exact (steady_demand b b0 (g_x g) (g_y g) t l m b2 S I1 I2 H0 Hl O Cn).
    - exact W0.
    - split; [eapply steady_count; eauto|exact Es].
    - cbn. lra.
    - cbn [p_todo]. apply (steady_demand b b (g_x g) (g_y g) t 0 todo b1 S S eq_refl Hs ltac:(lra) O0). replace ((1 - 0) * t) with t by ring. exact Ec.
    - exact Hp.
    - unfold remainder, stR in *. rewrite P. lra.
  Qed.

  (** *** The loop ends *)
  (** Whatever the inputs, the densities of the brush evaluate to at most K and
      the aspect ratio to at most Q, and so do the values now in force. *)
  Definition at_most (K Q : R) (dpa dpb dps ratio : R) : Prop := dpa <= K /\ dpb <= K /\ dps <= K /\ ratio <= Q.
  Definition bounded (K Q : R) (b : brush) : Prop :=
    (forall data vs, calculate_all (b_settings b) data = Ok vs ->
       at_most K Q (nth SET_DABS_PER_ACTUAL_RADIUS vs 0) (nth SET_DABS_PER_BASIC_RADIUS vs 0) (nth SET_DABS_PER_SECOND vs 0) (nth SET_ELLIPTICAL_DAB_RATIO vs 0)) /\
    at_most K Q (st b STATE_DABS_PER_ACTUAL_RADIUS) (st b STATE_DABS_PER_BASIC_RADIUS) (st b STATE_DABS_PER_SECOND) (st b STATE_ACTUAL_ELLIPTICAL_DAB_RATIO) /\
    ((st b STATE_ACTUAL_RADIUS : R) = 0 \/ 2 / 10 <= (st b STATE_ACTUAL_RADIUS : R)).

  Lemma length_bound : forall Q ratio angle dx dy, 1 <= Q -> ratio <= Q -> 0 <= length_of L ratio angle dx dy <= Q * sqrt (dx * dx + dy * dy).
  Proof.
    intros Q ratio angle dx dy HQ HR. assert (0 <= dx * dx + dy * dy) as Hp by (pose proof (Rle_0_sqr dx); pose proof (Rle_0_sqr dy); unfold Rsqr in *; lra).
    pose proof (sqrt_pos (dx * dx + dy * dy)) as Hq. unfold length_of. destruct (Rlt_bool_spec 1 ratio) as [K|K].
    - cbv zeta. split; [apply sqrt_pos|]. rewrite <- (sqrt_Rsqr Q) by lra. rewrite <- sqrt_mult by (unfold Rsqr; try apply Rmult_le_pos; lra). apply sqrt_le_1_alt. unfold Rsqr.
      match goal with |- context [cos ?a] => assert (cos a * cos a + sin a * sin a = 1) as CS by (pose proof (sin2_cos2 a); unfold Rsqr in *; lra); revert CS; generalize (cos a) (sin a); intros c s CS end.
      assert (0 <= (dy * c - dx * s) * (dy * c - dx * s)) by apply Rle_0_sqr. assert (0 <= (dy * s + dx * c) * (dy * s + dx * c)) by apply Rle_0_sqr.
      assert (dx * dx + dy * dy = (dy * c - dx * s) * (dy * c - dx * s) + (dy * s + dx * c) * (dy * s + dx * c)) as EE.
      { transitivity ((c * c + s * s) * (dx * dx + dy * dy)); [rewrite CS; ring|ring]. }
      rewrite EE. assert (ratio * ratio <= Q * Q) by (apply Rmult_le_compat; lra). assert (1 * 1 <= Q * Q) by (apply Rmult_le_compat; lra).
      set (u := (dy * c - dx * s) * (dy * c - dx * s)) in *. set (v := (dy * s + dx * c) * (dy * s + dx * c)) in *.
      assert (ratio * ratio * u <= Q * Q * u) by (apply Rmult_le_compat_r; auto). assert (1 * v <= Q * Q * v) by (apply Rmult_le_compat_r; lra). unfold u, v in *. lra.
    - split; [exact Hq|]. rewrite <- (Rmult_1_l (sqrt _)) at 1. apply Rmult_le_compat_r; auto.
  Qed.
  Lemma demand_bound : forall K Q dpa dpb dps r r0 ratio angle dx dy t, 0 <= K -> 1 <= Q -> at_most K Q dpa dpb dps ratio -> 2 / 10 <= r -> 2 / 10 <= r0 -> 0 <= t ->
    demand L dpa dpb dps r r0 ratio angle dx dy t <= 10 * K * Q * sqrt (dx * dx + dy * dy) + K * t.
  Proof.
    intros K Q dpa dpb dps r r0 ratio angle dx dy t HK HQ (A1 & A2 & A3 & A4) Hr Hr0 Ht. unfold demand. destruct (length_bound Q ratio angle dx dy HQ A4) as [B1 B2].
    set (l := length_of L ratio angle dx dy) in *.
    assert (forall q dd, 2 / 10 <= q -> dd <= K -> l / q * dd <= 5 * K * l) as G.
    { intros q dd Hq Hd. assert (0 < / q <= 5) as [I1 I2]. { split; [apply Rinv_0_lt_compat; lra|]. replace 5 with (/ (2 / 10)) by field. apply Rinv_le; lra. }
      apply Rle_trans with (l / q * K); [apply Rmult_le_compat_l; [apply Rmult_le_pos; lra|auto]|]. unfold Rdiv. replace (5 * K * l) with (l * 5 * K) by ring. apply Rmult_le_compat_r; auto. apply Rmult_le_compat_l; auto. }
    pose proof (G r dpa Hr A1). pose proof (G r0 dpb Hr0 A2). assert (t * dps <= t * K) by (apply Rmult_le_compat_l; auto).
    assert (10 * K * l <= 10 * K * (Q * sqrt (dx * dx + dy * dy))) by (apply Rmult_le_compat_l; lra). lra.
  Qed.
  Lemma bounded_count_inv : forall K Q (b : brush) x y t n b', bounded K Q b -> has_states b -> count_dabs_to L b x y t = (n, b') -> bounded K Q b'.
  Proof.
    intros K Q b x y t n b' (B1 & B2 & B3) Hs Cn. destruct (count_facts L _ _ _ _ _ _ Hs Cn) as (_ & _ & O). destruct (count_demand L RL _ _ _ _ _ _ Hs Cn) as (_ & R & Es).
    unfold bounded. rewrite Es, !O by discriminate. split; [exact B1|]. split; [exact B2|]. unfold stR, radius_now in R. rewrite R. right. unfold stR.
    destruct (Req_bool_spec (st b STATE_ACTUAL_RADIUS) 0); [|lra]. unfold base_radius. rewrite clamp_is. apply radius_range.
  Qed.
  Lemma bounded_wants : forall K Q (b : brush) x y t n b', 0 <= K -> 1 <= Q -> 0 <= t -> bounded K Q b -> has_states b -> count_dabs_to L b x y t = (n, b') ->
    (n : R) <= 10 * K * Q * sqrt ((x - pen_x b) * (x - pen_x b) + (y - pen_y b) * (y - pen_y b)) + K * t.
  Proof.
    intros K Q b x y t n b' HK HQ Ht (_ & B2 & B3) Hs Cn. destruct (count_demand L RL _ _ _ _ _ _ Hs Cn) as (-> & _ & _). apply Rmax_lub.
    - pose proof (sqrt_pos ((x - pen_x b) * (x - pen_x b) + (y - pen_y b) * (y - pen_y b))). assert (0 <= 10 * K * Q) by (repeat apply Rmult_le_pos; lra).
      assert (0 <= K * t) by (apply Rmult_le_pos; lra). assert (0 <= 10 * K * Q * sqrt ((x - pen_x b) * (x - pen_x b) + (y - pen_y b) * (y - pen_y b))) by (apply Rmult_le_pos; lra). lra.
    - unfold demand_at. apply demand_bound; auto.
      + unfold radius_now, stR. destruct (Req_bool_spec (st b STATE_ACTUAL_RADIUS) 0); [|lra]. unfold base_radius. rewrite clamp_is. apply radius_range.
      + unfold base_radius. rewrite clamp_is. apply radius_range.
  Qed.

  (** Theorem: the loop ends after at most that many dabs, whatever the dynamics,
      the random numbers and the surface do. *)
  Theorem C34_ends_partial : forall K Q n (b : brush) w (g : target mixR) (t : R), 0 <= K -> 1 <= Q -> 0 <= t -> has_states b -> 0 <= remainder b < 1 -> bounded K Q b ->
    remainder b + 10 * K * Q * sqrt ((g_x g - pen_x b) * (g_x g - pen_x b) + (g_y g - pen_y b) * (g_y g - pen_y b)) + K * t < INR n ->
    paint_dabs L n b w g (t : dbl mixR) <> Ok None.
  Proof.
    intros K Q n b w g t HK HQ Ht Hs Hr B Hn Hp. unfold paint_dabs in Hp. cbv zeta in Hp. destruct (count_dabs_to _ _ _ _ _) as [todo b1] eqn:Ec.
    pose proof (start_walk L b w g t todo b1 Hs Hr Ec) as W0. set (C := 10 * K * Q * sqrt ((g_x g - pen_x b) * (g_x g - pen_x b) + (g_y g - pen_y b) * (g_y g - pen_y b)) + K * t) in *.
    assert (0 <= C) as HC.
    { pose proof (sqrt_pos ((g_x g - pen_x b) * (g_x g - pen_x b) + (g_y g - pen_y b) * (g_y g - pen_y b))). assert (0 <= 10 * K * Q) by (repeat apply Rmult_le_pos; lra).
      apply Rplus_le_le_0_compat; apply Rmult_le_pos; lra. }
    assert (INR n + INR 0 <= stR b STATE_PARTIAL_DABS + C) as A; [|unfold remainder, stR, C in *; cbn [INR] in A; lra].
    apply (dabs_bounded L (bounded K Q) C (stR b STATE_X) (stR b STATE_Y) (stR b STATE_PARTIAL_DABS) t g HC) with (lam := 0) (p := mkProgress b1 w None (t : dbl mixR) (st b STATE_PARTIAL_DABS) todo []); auto.
    - intros b0 sp b2 b3 (I1 & I2 & I3) U H0 H3 Sm E3. destruct (update_density b0 sp b2 H0 U) as (vs & data & Ev & D1 & D2 & D3 & D4 & D5).
      unfold bounded. rewrite E3, !Sm by (vm_compute; first [lia|discriminate]). split; [exact I1|]. rewrite D1, D2, D3, D4, D5. split; [exact (I1 _ _ Ev)|right; apply radius_range].
    - intros b0 x y u m b2 I H0 Cn. exact (bounded_count_inv K Q b0 x y u m b2 I H0 Cn).
    - intros b0 l m b2 I H0 Hl (X & Y) Cn. pose proof (bounded_wants K Q b0 (g_x g) (g_y g) ((1 - l) * t) m b2 HK HQ ltac:(apply Rmult_le_pos; lra) I H0 Cn) as X1.
      unfold pen_x, pen_y, stR in *. rewrite X, Y in X1. eapply Rle_trans; [exact X1|]. right. unfold C, pen_x, pen_y.
      match goal with |- context [sqrt ?u] => match u with context [l] => replace u with ((1 - l) * (1 - l) * ((g_x g - st b STATE_X) * (g_x g - st b STATE_X) + (g_y g - st b STATE_Y) * (g_y g - st b STATE_Y))) by ring end end.
      rewrite sqrt_scale by lra. unfold pen_x, pen_y. ring.
    - exact (bounded_count_inv K Q b _ _ _ _ _ B Hs Ec).
    - cbn. lra.
    - cbn [p_todo]. rewrite Rminus_0_r, Rmult_1_l. exact (bounded_wants K Q b _ _ _ _ _ HK HQ Ht B Hs Ec).
  Qed.

  (** *** Over the API: whatever events are sent, the remainder stays in [0,1) *)
  Lemma rest_remainder : forall n (b : brush) w t e a b' w', has_states b -> 0 <= remainder b < 1 -> stroke_rest L n b w t e = Ok (Some (a, b', w')) -> has_states b' /\ 0 <= remainder b' < 1.
  Proof.
    intros n b w t e a b' w' Hs Hr O. unfold stroke_rest in O. destruct (skip_input _ _ _ _ _) as [b1 go] eqn:E1. apply skip_fields in E1.
    assert (has_states b1 /\ 0 <= remainder b1 < 1) as [Hs1 Hr1] by (rewrite E1; auto). clear E1. destruct go as [dt|]; [|apply Ok_inj in O; injection O as _ <- _; auto].
    apply obind_ok in O. destruct O as (((x, y), b2) & E2 & O). apply track_fields in E2. assert (has_states b2 /\ 0 <= remainder b2 < 1) as [Hs2 Hr2] by (rewrite E2; auto). clear E2.
    match type of O with (if ?c then _ else _) = _ => destruct c end.
    - apply obind_ok in O. destruct O as (b3 & E3 & O). apply Ok_inj in O. injection O as _ <- _. apply do_reset_states in E3. destruct E3 as [E3 _]. unfold has_states, remainder, st. rewrite E3.
      split; [reflexivity|]. cbn. lra.
    - unfold paint_to in O. apply obind_ok in O. destruct O as ([p|] & E3 & O); [|discriminate]. apply obind_ok in O. destruct O as ((a', b3) & E4 & O). apply Ok_inj in O. injection O as _ <- _.
      destruct (paint_walk L n b2 w _ _ p Hs2 Hr2 E3) as (lam & W & _). destruct (rest_walk L p _ _ a' b3 (wk_states _ _ _ _ _ _ _ W) E4) as (H3 & _). split; [exact H3|].
      exact (proj1 (proj2 (proj2 (C34_walk_partial n b2 w _ dt p a' b3 Hs2 Hr2 E3 E4)))).
  Qed.
  Theorem C34_remainder_partial : forall n (es : list (event mixR)) (b b' : brush) w w', has_states b -> 0 <= remainder b < 1 ->
    ofold (fun a e => match a with Some (b, w) => let* r := stroke_to L n b w e in Ok (option_map (fun x => let '(_, b, w) := x in (b, w)) r) | None => Ok None end) es (Some (b, w)) = Ok (Some (b', w')) ->
    0 <= remainder b' < 1.
  Proof.
    intros n es. induction es as [|e es IH]; intros b b' w w' Hs Hr H; cbn [ofold] in H; [apply Ok_inj in H; injection H as <- _; exact Hr|].
    apply obind_ok in H. destruct H as (r & Er & H). destruct r as [[b1 w1]|]; [|exfalso; clear - H; induction es; cbn in H; [discriminate|auto]].
    apply obind_ok in Er. destruct Er as (r & Er & E1). apply Ok_inj in E1. destruct r as [((a, b2), w2)|]; [|discriminate]. cbn [option_map] in E1. injection E1 as -> ->.
    assert (has_states b1 /\ 0 <= remainder b1 < 1) as [Hs1 Hr1]; [|exact (IH b1 b' w1 w' Hs1 Hr1 H)].
    unfold stroke_to in Er. apply obind_ok in Er. destruct Er as ((t, e1) & _ & Er). match type of Er with (if ?c then _ else _) = _ => destruct c end.
    - apply obind_ok in Er. destruct Er as ((t2, e2) & _ & Er). apply obind_ok in Er. destruct Er as (r2 & Er2 & Er). destruct r2 as [((a3, b3), w3)|]; [|discriminate].
      destruct (rest_remainder _ _ _ _ _ _ _ _ Hs Hr Er2) as [Hs3 Hr3]. exact (rest_remainder _ _ _ _ _ _ _ _ Hs3 Hr3 Er).
    - exact (rest_remainder _ _ _ _ _ _ _ _ Hs Hr Er).
  Qed.
End Spacing.

(** *** A case: a brush of radius 1 with two dabs per radius, moved from (0,0) to
    (3,4), paints ten dabs and leaves nothing. *)
Definition two_per_radius (i : nat) : R := if (i =? SET_DABS_PER_ACTUAL_RADIUS)%nat then 2 else 0.
Definition two_per_radius_states (i : nat) : R :=
  if (i =? STATE_DABS_PER_ACTUAL_RADIUS)%nat then 2 else if (i =? STATE_ACTUAL_RADIUS)%nat || (i =? STATE_FLIP)%nat then 1 else 0.
Definition case_brush := flat_brush two_per_radius two_per_radius_states.
Definition case_target : target mixR :=
  mkTarget (M := mixR) (3%R : sng mixR) (4%R : sng mixR) (1%R : sng mixR) (mkTilt (M := mixR) (0%R : sng mixR) (90%R : sng mixR) (90%R : sng mixR) (90%R : sng mixR)) (1%R : sng mixR) (0%R : sng mixR) (0%R : sng mixR) false.

Lemma case_steady : steady case_brush.
Proof.
  assert (Rmin 1000 (Rmax (2 / 10) (exp (base case_brush SET_RADIUS_LOGARITHMIC))) = 1)%R as E1.
  { unfold case_brush. rewrite flat_base by (vm_compute; lia). change (two_per_radius SET_RADIUS_LOGARITHMIC) with 0%R. rewrite exp_0. rewrite Rmax_right, Rmin_right by lra. reflexivity. }
  unfold steady, in_force. rewrite E1. unfold case_brush. rewrite !flat_constant. repeat match goal with |- context [base (flat_brush ?a ?b) ?i] => rewrite (flat_base a b i ltac:(vm_compute; lia)) end.
  repeat match goal with |- context [st (flat_brush ?a ?b) ?i] => rewrite (flat_state a b i ltac:(vm_compute; lia)) end.
  unfold two_per_radius, two_per_radius_states. cbn. repeat split; lra.
Qed.
Lemma case_plain : plain case_brush.
Proof. apply flat_plain; reflexivity. Qed.
Lemma case_wanted : wanted case_brush 3 4 (1 / 10) = 10%R.
Proof.
  unfold wanted, pen_x, pen_y. cbv zeta. unfold case_brush. rewrite !flat_state by (vm_compute; lia). rewrite !flat_base by (vm_compute; lia).
  unfold two_per_radius, two_per_radius_states. cbn -[Rmax Rmin sqrt exp IZR]. rewrite exp_0. rewrite (Rmax_right (2 / 10) 1), (Rmin_right 1000 1) by lra.
  replace ((3 - 0) * (3 - 0) + (4 - 0) * (4 - 0))%R with (5 * 5)%R by ring. rewrite sqrt_square by lra. rewrite Rmax_right; lra.
Qed.
Lemma case_bounded : bounded 2 1 case_brush.
Proof.
  split.
  - intros data vs Ev. unfold at_most. rewrite !(constant_value case_brush _ data vs) by (auto; apply flat_constant). unfold case_brush. rewrite !flat_base by (vm_compute; lia). unfold two_per_radius. cbn. lra.
  - unfold at_most, case_brush. rewrite !flat_state by (vm_compute; lia). unfold two_per_radius_states. cbn. lra.
Qed.
Lemma case_remainder : remainder case_brush = 0%R.
Proof. unfold remainder, case_brush. rewrite flat_state by (vm_compute; lia). reflexivity. Qed.
Example C34_case : exists p a b', paint_dabs mathR 200 case_brush worldR case_target ((1 / 10)%R : dbl mixR) = Ok (Some p) /\
  paint_rest mathR p case_target ((1 / 10)%R : dbl mixR) = Ok (a, b') /\ length (p_log p) = 10%nat /\ remainder b' = 0%R /\ pen_x b' = 3%R /\ pen_y b' = 4%R.
Proof.
  pose proof (paint_to_returns mathR real_1 real_m1 real_11 real_mm real_Z still_next still_draw 200 case_brush worldR case_target ((1 / 10)%R : dbl mixR) case_plain) as (r & Er & _).
  assert (0 <= remainder case_brush < 1)%R as Hr by (rewrite case_remainder; lra).
  assert (paint_dabs mathR 200 case_brush worldR case_target ((1 / 10)%R : dbl mixR) <> Ok None) as Hn.
  { apply (C34_ends_partial mathR mathR_ok 2 1); try lra; [apply flat_states|exact case_bounded|]. rewrite case_remainder. unfold pen_x, pen_y, case_brush. rewrite !flat_state by (vm_compute; lia).
    unfold two_per_radius_states. cbn -[sqrt IZR INR]. replace ((3 - 0) * (3 - 0) + (4 - 0) * (4 - 0))%R with (5 * 5)%R by ring. rewrite sqrt_square by lra. rewrite INR_IZR_INZ. change (Z.of_nat 200) with 200. lra. }
  unfold paint_to in Er. apply obind_ok in Er. destruct Er as ([p|] & Ep & Er); [|contradiction]. apply obind_ok in Er. destruct Er as ((a, b') & Eq & _).
  exists p, a, b'. split; [exact Ep|]. split; [exact Eq|].
  assert (INR (length (p_log p)) + remainder b' = remainder case_brush + wanted case_brush 3 4 (1 / 10))%R as Cn by exact (C34_count_partial mathR mathR_ok _ _ _ _ _ _ _ _ (flat_states _ _) Hr case_steady Ep Eq). destruct (C34_walk_partial mathR _ _ _ _ _ _ _ _ (flat_states _ _) Hr Ep Eq) as (X & Y & Rm & _).
  rewrite case_wanted, case_remainder in Cn.
  assert (length (p_log p) = 10%nat) as L10.
  { rewrite INR_IZR_INZ in Cn. assert (Z.of_nat (length (p_log p)) < 11) by (apply lt_IZR; lra). assert (9 < Z.of_nat (length (p_log p))) by (apply lt_IZR; lra). lia. }
  rewrite L10 in Cn. rewrite INR_IZR_INZ in Cn. change (Z.of_nat 10) with 10 in Cn. split; [exact L10|]. split; [lra|]. auto.
Qed.

Print Assumptions C34_walk_partial.
Print Assumptions C34_count_partial.
Print Assumptions C34_ends_partial.
Print Assumptions C34_remainder_partial.
