(** Property C54: in C's own arithmetic, a colour survives the conversion to HSV
    or HSL and back up to a small error, and what an application chooses is what
    the brush paints. *)
From Verif Require Import Base F32 F32Proofs Arith Color Mapping P_Mapping Settings Spectral Brush BrushProofs BrushInst BrushToy ReturnProofs P_Abort P_Endless
  EaselNum EaselDab ColorFloat ColorRound ChosenProofs.
From Coq Require Import Reals Lra.
From Flocq Require Import Core.Core IEEE754.BinarySingleNaN.
Local Open Scope Z_scope.

(** *** Vocabulary *)

(** a number between 0 and 1 *)
Definition part (x : f32) : Prop := fin x /\ (0 <= b2r x <= 1)%R.
Definition color_ok (c : f32 * f32 * f32) : Prop := let '(r, g, b) := c in part r /\ part g /\ part b.
(** no component of the two colours differs by more than [e] *)
Definition within (e : R) (c c' : f32 * f32 * f32) : Prop :=
  let '(r, g, b) := c in let '(r', g', b') := c' in
  (Rabs (b2r r' - b2r r) <= e)%R /\ (Rabs (b2r g' - b2r g) <= e)%R /\ (Rabs (b2r b' - b2r b) <= e)%R.
(** a grey, or a colour two of whose components differ by more than 1/9990 *)
Definition distinct (c : f32 * f32 * f32) : Prop :=
  let '(r, g, b) := c in
  (b2r r = b2r g /\ b2r g = b2r b) \/ (/ 9990 < Rabs (b2r r - b2r g))%R \/ (/ 9990 < Rabs (b2r g - b2r b))%R \/ (/ 9990 < Rabs (b2r b - b2r r))%R.

Lemma part_zf : forall x, part x <-> zf 0 x 1.
Proof. intros x. unfold part, zf. tauto. Qed.
Lemma color_unit3 : forall c, color_ok c <-> unit3 c.
Proof. intros [[r g] b]. unfold color_ok, unit3. rewrite !part_zf. tauto. Qed.
Lemma distinct_ends : forall r g b, distinct (r, g, b) -> exists X N, ends (b2r r) (b2r g) (b2r b) X N /\ (X = N \/ (/ 9990 < X - N)%R).
Proof.
  intros r g b D. cbn in D. generalize dependent (b2r r). generalize (b2r g). generalize (b2r b). intros z y x D.
  exists (Rmax x (Rmax y z)), (Rmin x (Rmin y z)). split.
  - clear D. unfold ends, Rmax, Rmin. destruct (Rle_dec y z) as [?|?%Rnot_le_lt]; repeat match goal with |- context [Rle_dec ?a ?b] => destruct (Rle_dec a b) as [?|?%Rnot_le_lt] end;
    (split; [auto|]; split; [auto|]; repeat split; lra).
  - pose proof (Rmax_l x (Rmax y z)). pose proof (Rmax_r x (Rmax y z)). pose proof (Rmax_l y z). pose proof (Rmax_r y z).
    pose proof (Rmin_l x (Rmin y z)). pose proof (Rmin_r x (Rmin y z)). pose proof (Rmin_l y z). pose proof (Rmin_r y z).
    destruct D as [[-> ->]|D].
    + left. rewrite (Rmax_left z z), (Rmin_left z z), Rmax_left, Rmin_left by lra. reflexivity.
    + right. destruct D as [D|[D|D]]; revert D; unfold Rabs; destruct (Rcase_abs _); lra.
Qed.

(** *** The conversions alone *)

(** Whatever finite numbers go in, the results are between 0 and 1 (a hue up to
    a million turns off). *)
Theorem C54_ranges :
  (forall r g b : f32, fin r -> fin g -> fin b -> color_ok (rgb_to_hsv mix64 (r, g, b)) /\ color_ok (rgb_to_hsl mix64 (r, g, b))) /\
  (forall h s v : f32, fin h -> (Rabs (b2r h) <= 1000000)%R -> fin s -> fin v ->
     (exists c, hsv_to_rgb mix64 (h, s, v) = Ok c /\ color_ok c) /\ color_ok (hsl_to_rgb mix64 (h, s, v))).
Proof.
  split.
  - intros r g b Fr Fg Fb. split; apply color_unit3; [apply to_hsv_unit|apply to_hsl_unit]; auto.
  - intros h s v Fh Ah Fs Fv. split; [|apply color_unit3, hsl_unit; auto].
    destruct (hsv_unit h s v Fh Ah Fs Fv) as (r & g & b & E & U). exists (r, g, b). split; [exact E|]. apply color_unit3. exact U.
Qed.

(** To HSV and back: every component is kept up to 4 millionths.  Colours that
    are almost but not exactly grey may become grey: up to 1/9970. *)
Theorem C54_hsv_round_trip : forall c, color_ok c ->
  exists c', hsv_to_rgb mix64 (rgb_to_hsv mix64 c) = Ok c' /\ within (/ 9970) c c' /\ (distinct c -> within (/ 250000) c c').
Proof.
  intros [[r g] b] (Zr & Zg & Zb). apply part_zf in Zr, Zg, Zb. destruct (hsv_round_float r g b Zr Zg Zb) as (c' & E & A & B).
  exists c'. split; [exact E|]. split; [exact A|]. intros D. destruct (distinct_ends r g b D) as (X & N & En & K). exact (B X N En K).
Qed.
(** To HSL and back: every component of every colour is kept up to 4 millionths. *)
Theorem C54_hsl_round_trip : forall c, color_ok c -> within (/ 250000) c (hsl_to_rgb mix64 (rgb_to_hsl mix64 c)).
Proof. intros [[r g] b] (Zr & Zg & Zb). apply part_zf in Zr, Zg, Zb. exact (hsl_round_float r g b Zr Zg Zb). Qed.

(** Exactly the same colour it is not, in general; and a colour that is almost
    grey does become grey. *)
Definition bluish : f32 * f32 * f32 := (flit 3 10, flit 2 10, flit 7 10).
Definition greyish : f32 * f32 * f32 := (flit 50009 100000, flit 5 10, flit 5 10).
Definition comp1 (c : f32 * f32 * f32) : f32 := fst (fst c).
Theorem C54_exact_refuted :
  (exists c c', color_ok c /\ hsv_to_rgb mix64 (rgb_to_hsv mix64 c) = Ok c' /\ c' <> c) /\
  (exists c, color_ok c /\ hsl_to_rgb mix64 (rgb_to_hsl mix64 c) <> c) /\
  (exists c, color_ok c /\ hsv_to_rgb mix64 (rgb_to_hsv mix64 c) = Ok (comp1 c, comp1 c, comp1 c) /\ c <> (comp1 c, comp1 c, comp1 c)).
Proof.
  assert (color_ok bluish /\ color_ok greyish) as [B1 B2].
  { split; (split; [|split]); split; try reflexivity; vm_compute; lra. }
  destruct (C54_hsv_round_trip bluish B1) as (c' & E & _).
  assert (match hsv_to_rgb mix64 (rgb_to_hsv mix64 bluish) with Ok c => feq (comp1 c) (comp1 bluish) | _ => true end = false) as T1 by (vm_compute; reflexivity).
  assert (feq (comp1 (hsl_to_rgb mix64 (rgb_to_hsl mix64 bluish))) (comp1 bluish) = false) as T2 by (vm_compute; reflexivity).
  assert (feq (comp1 bluish) (comp1 bluish) = true) as T3 by (vm_compute; reflexivity).
  assert (feq (snd greyish) (comp1 greyish) = false) as T4 by (vm_compute; reflexivity).
  assert (feq (comp1 greyish) (comp1 greyish) = true) as T5 by (vm_compute; reflexivity).
  split; [|split].
  - exists bluish, c'. split; [exact B1|]. split; [exact E|]. intros X. rewrite E, X, T3 in T1. discriminate T1.
  - exists bluish. split; [exact B1|]. intros X. rewrite X, T3 in T2. discriminate T2.
  - exists greyish. split; [exact B2|]. split.
    + assert (fst (fst (rgb_to_hsv mix64 greyish)) = f_of_Z 0) as Eh by (apply B2SF_inj; vm_compute; reflexivity).
      assert (snd (fst (rgb_to_hsv mix64 greyish)) = f_of_Z 0) as Es by (apply B2SF_inj; vm_compute; reflexivity).
      assert (snd (rgb_to_hsv mix64 greyish) = comp1 greyish) as Ev by (apply B2SF_inj; vm_compute; reflexivity).
      assert (rgb_to_hsv mix64 greyish = (f_of_Z 0, f_of_Z 0, comp1 greyish)) as ->.
      { clear - Eh Es Ev. destruct (rgb_to_hsv mix64 greyish) as ((a, b), c). cbn [fst snd] in Eh, Es, Ev. rewrite Eh, Es, Ev. reflexivity. }
      unfold hsv_to_rgb. 
      assert (clamp01 mix64 (comp1 greyish) = comp1 greyish) as Ec by (apply B2SF_inj; vm_compute; reflexivity).
      rewrite Ec. reflexivity.
    + intros X. assert (snd greyish = comp1 greyish) as Y by (rewrite X at 1; reflexivity). rewrite Y, T5 in T4. discriminate T4.
Qed.

(** *** The brush *)

Section Painting.
  Context (L : mathlib mix64) (E : env mix64).

  (** The brush neither smudges nor changes its colour. *)
  Definition keeps_color (b : brush E) : Prop :=
    forall i, In i [SET_SMUDGE; SET_CHANGE_COLOR_H; SET_CHANGE_COLOR_HSV_S; SET_CHANGE_COLOR_V; SET_CHANGE_COLOR_L; SET_CHANGE_COLOR_HSL_S] ->
      zero_setting b i.
  (** The application has chosen the colour [c] (as HSV). *)
  Definition chosen (b : brush E) (hsv : f32 * f32 * f32) : Prop :=
    let '(h, s, v) := hsv in
    get_base_value b (Z.of_nat SET_COLOR_H) = Ok h /\ get_base_value b (Z.of_nat SET_COLOR_S) = Ok s /\ get_base_value b (Z.of_nat SET_COLOR_V) = Ok v.
  (** The second surface is what the first becomes when dabs are drawn on it, one
      after the other, all of them in the colour [c]. *)
  Inductive painted_in (c : f32 * f32 * f32) : e_surf E -> e_surf E -> Prop :=
  | nothing_yet : forall a, painted_in c a a
  | a_dab : forall a b (x : dab mix64) r b', painted_in c a b -> (dab_r x, dab_g x, dab_b x) = c -> e_draw E b x = Ok (r, b') -> painted_in c a b'.

  Lemma painted_of : forall c a b, dabs_of (E := E) c a b -> painted_in c a b.
  Proof. intros c a b H. induction H as [|sf sf1 sf2 x r B1 IH C D]; [apply nothing_yet|]. exact (a_dab c sf sf1 x r sf2 IH C D). Qed.
  Lemma keeps_colored : forall (b : brush E) hsv c, shape b -> keeps_color b -> chosen b hsv -> hsv_to_rgb mix64 hsv = Ok c -> colored c b.
  Proof.
    intros b [[h s] v] c Sh K (Eh & Es & Ev) Ec. pose proof Sh as (_ & So & _).
    assert (forall i u, (i < SETTINGS_COUNT)%nat -> get_base_value b (Z.of_nat i) = Ok u -> base b i = u) as G.
    { intros i u Hi Eu. destruct (setting_in E b i So Hi) as (m & N & Em). unfold get_base_value in Eu. rewrite Em in Eu. cbn [obind] in Eu. injection Eu as <-.
      unfold base. rewrite N. reflexivity. }
    split.
    - rewrite (G SET_COLOR_H _ ltac:(vm_compute; lia) Eh), (G SET_COLOR_S _ ltac:(vm_compute; lia) Es), (G SET_COLOR_V _ ltac:(vm_compute; lia) Ev). exact Ec.
    - assert (forall i, (i < SETTINGS_COUNT)%nat -> zero_setting b i -> off b i) as O.
      { intros i Hi (Ci & u & Eu & Zu). destruct (setting_in E b i So Hi) as (m & N & Em). unfold is_constant in Ci. unfold get_base_value in Eu. rewrite Em in *. cbn [obind] in *.
        injection Ci as Ci. injection Eu as <-. unfold off, Brush.constant, base. rewrite N. split; [exact Ci|exact Zu]. }
      apply Forall_forall. intros i Hi. apply O; [|apply K; exact Hi]. clear - Hi. unfold dynamics in Hi. cbn [In] in Hi.
      repeat match goal with H : _ \/ _ |- _ => destruct H as [<-|H] | H : False |- _ => destruct H end; vm_compute; lia.
  Qed.

  (** Such a brush, whatever has been done with it before, paints every dab of
      every event in the colour that was chosen ... *)
  Theorem C54_one_color : forall n (b : brush E) w es b' w' hsv c,
    reachable L b -> keeps_color b -> chosen b hsv -> hsv_to_rgb mix64 hsv = Ok c ->
    strokes L E n es b w = Ok (Some (b', w')) ->
    painted_in c (w_surf w) (w_surf w') /\ chosen b' hsv.
  Proof.
    intros n b w es b' w' hsv c Rb K Ch Ec R. pose proof (reachable_shape L b Rb) as Sh. pose proof (keeps_colored b hsv c Sh K Ch Ec) as Co.
    assert (went c b w b' w') as (S & D).
    { clear Rb K Ch Ec Sh. revert b w Co R. unfold strokes. induction es as [|e es IH]; intros b w Co R; cbn [ofold] in R.
      - injection R as <- <-. split; [reflexivity|apply no_dab].
      - apply obind_ok in R. destruct R as (r & E1 & R). apply obind_ok in E1. destruct E1 as (r1 & E1 & E2). injection E2 as <-.
        destruct r1 as [((a, b1), w1)|]; cbn [option_map] in R.
        + assert (went c b w b1 w1) as W1.
          { eapply (stroke_to_color L); [|exact Co|exact E1]. intros v H0. cbn in v. destruct v as [[]|[]| |[] m x Hb]; try discriminate H0; reflexivity. }
          eapply went_trans; [exact W1|]. apply IH; [eapply went_colored; eauto|exact R].
        + exfalso. clear - R. induction es as [|e es IH]; cbn [ofold] in R; [discriminate R|]. cbn [obind] in R. auto. }
    split; [apply painted_of; exact D|]. destruct hsv as [[h s] v]. unfold chosen, get_base_value, setting_of in *. rewrite S. exact Ch.
  Qed.

  (** ... so a colour chosen as RGB is painted, on any surface, up to an error
      nobody can see. *)
  Theorem C54_chosen_is_painted : forall n (b : brush E) w es b' w' c,
    reachable L b -> keeps_color b -> color_ok c -> chosen b (rgb_to_hsv mix64 c) ->
    strokes L E n es b w = Ok (Some (b', w')) ->
    exists c', painted_in c' (w_surf w) (w_surf w') /\ within (/ 9970) c c' /\ (distinct c -> within (/ 250000) c c').
  Proof.
    intros n b w es b' w' c Rb K Hc Ch R. destruct (C54_hsv_round_trip c Hc) as (c' & E0 & A & B). exists c'.
    destruct (C54_one_color n b w es b' w' _ c' Rb K Ch E0 R) as [D _]. auto.
  Qed.
End Painting.

(** *** Examples *)

Example C54_case : color_ok bluish /\ distinct bluish /\ color_ok greyish /\ ~ distinct greyish.
Proof.
  split; [|split; [|split]].
  - split; [|split]; split; try reflexivity; vm_compute; lra.
  - right. left. rewrite Rabs_pos_eq; vm_compute; lra.
  - split; [|split]; split; try reflexivity; vm_compute; lra.
  - unfold distinct, greyish. assert (b2r (flit 5 10) = / 2)%R as -> by (vm_compute; lra).
    assert (/ 2 + / 12000 < b2r (flit 50009 100000) < / 2 + / 11000)%R as H by (split; vm_compute; lra).
    intros [D|[D|[D|D]]]; [lra| | |]; revert D; unfold Rabs; destruct (Rcase_abs _); lra.
Qed.

(** A default brush with this colour: it paints dabs, and all of them have it. *)
Definition hsv_calls (c : f32 * f32 * f32) : calls :=
  let '(h, s, v) := rgb_to_hsv mix64 c in
  [set_base SET_COLOR_H h; set_base SET_COLOR_S s; set_base SET_COLOR_V v; set_base SET_OPAQUE f1; set_base SET_DABS_PER_ACTUAL_RADIUS f1].
Definition same_base (b : brush toy) (i : nat) (v : f32) : bool :=
  match get_base_value b (Z.of_nat i) with Ok u => f_eqb u v | _ => false end.
Definition ready (b : brush toy) : bool :=
  forallb (zero_b b) [SET_SMUDGE; SET_CHANGE_COLOR_H; SET_CHANGE_COLOR_HSV_S; SET_CHANGE_COLOR_V; SET_CHANGE_COLOR_L; SET_CHANGE_COLOR_HSL_S] &&
  let '(h, s, v) := rgb_to_hsv mix64 bluish in same_base b SET_COLOR_H h && same_base b SET_COLOR_S s && same_base b SET_COLOR_V v.
Definition moves : list (event mix64) := [pen 5 5 50 10; pen 8 5 50 10; pen 8 9 70 10].
Lemma ready_ok : forall b, ready b = true -> keeps_color toy b /\ chosen toy b (rgb_to_hsv mix64 bluish).
Proof.
  intros b H. unfold ready in H. apply andb_prop in H. destruct H as [Z H]. split.
  - intros i Hi. rewrite forallb_forall in Z. specialize (Z i Hi). unfold zero_b in Z. unfold zero_setting.
    destruct (is_constant b (Z.of_nat i)) as [[]| |]; try discriminate Z.
    destruct (get_base_value b (Z.of_nat i)) as [v| |]; try discriminate Z. split; [reflexivity|]. eauto.
  - unfold chosen. destruct (rgb_to_hsv mix64 bluish) as ((h, s), v). apply andb_prop in H. destruct H as [H H3]. apply andb_prop in H. destruct H as [H1 H2].
    assert (forall i u, same_base b i u = true -> get_base_value b (Z.of_nat i) = Ok u) as K.
    { intros i u Hu. unfold same_base in Hu. destruct (get_base_value b (Z.of_nat i)) as [x| |]; try discriminate Hu. apply f_eq in Hu. rewrite Hu. reflexivity. }
    split; [|split]; apply K; assumption.
Qed.
Definition drawn (r : outcome (option (brush toy * world toy))) : Z :=
  match r with Ok (Some (_, w)) => Z.of_nat (length (w_surf w)) | _ => -1 end.
Example C54_case_brush : exists b w b' w', session 0 (hsv_calls bluish) = Ok (Some (b, w)) /\
  keeps_color toy b /\ chosen toy b (rgb_to_hsv mix64 bluish) /\ strokes toy_lib toy 20 moves b w = Ok (Some (b', w')) /\
  w_surf w = [] /\ length (w_surf w') = 4%nat /\
  exists c', within (/ 250000) bluish c' /\ painted_in toy c' (w_surf w) (w_surf w').
Proof.
  destruct (after_ok 0 (hsv_calls bluish) (fun b w => ready b && match w_surf w with [] => true | _ => false end && (drawn (strokes toy_lib toy 20 moves b w) =? 4)) ltac:(vm_compute; reflexivity)) as (b & w & S & C).
  apply andb_prop in C. destruct C as [C D]. apply andb_prop in C. destruct C as [C W]. destruct (ready_ok b C) as [K Ch]. exists b, w.
  apply Z.eqb_eq in D. unfold drawn in D. destruct (strokes toy_lib toy 20 moves b w) as [[[b' w']|]| |] eqn:R; try discriminate D. exists b', w'.
  split; [exact S|]. split; [exact K|]. split; [exact Ch|]. split; [reflexivity|]. split; [destruct (w_surf w); [reflexivity|discriminate W]|]. split; [lia|].
  destruct C54_case as (Ok1 & Di & _). assert (reachable toy_lib b) as Rb by (eapply session_reachable; [|exact S]; lia).
  destruct (C54_chosen_is_painted toy_lib toy 20 b w moves b' w' bluish Rb K Ok1 Ch R) as (c' & P & _ & Q). exists c'. auto.
Qed.

Print Assumptions C54_ranges.
Print Assumptions C54_hsv_round_trip.
Print Assumptions C54_hsl_round_trip.
Print Assumptions C54_exact_refuted.
Print Assumptions C54_one_color.
Print Assumptions C54_chosen_is_painted.
