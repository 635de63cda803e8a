(** The colour conversions, bit exact: how far a colour moves when it is converted
    to HSV or HSL and back. *)
From Verif Require Import Base F32 F32Proofs Arith Color Mapping Settings Spectral Brush BrushProofs P_Abort P_Limits StepFacts EaselNum EaselDab ColorFloat.
From Coq Require Import Reals Lra Psatz.
From Flocq Require Import Core.Core IEEE754.BinarySingleNaN.
From Flocq Require Import Relative Plus_error Mult_error.
Local Open Scope R_scope.

Definition tiny : R := / 1000000000000.

(** *** Rounding errors *)
Lemma r64e : forall x, Rabs x <= 16 -> Rabs (rnd64 x - x) <= tiny.
Proof. intros x H. apply Rle_trans with (bpow radix2 (4 - 54)); [apply rnd64_err; [simpl; lra|lia]|]. change (bpow radix2 (4 - 54)) with (/ 1125899906842624). unfold tiny. lra. Qed.
Lemma r32e : forall x, Rabs x <= 1 -> Rabs (rnd32 x - x) <= u24 / 2.
Proof. intros x H. apply Rle_trans with (bpow radix2 (0 - 25)); [apply rnd32_err; [simpl; lra|lia]|]. change (bpow radix2 (0 - 25)) with (/ 33554432). unfold u24. lra. Qed.
Lemma r32e2 : forall x, Rabs x <= 2 -> Rabs (rnd32 x - x) <= u24.
Proof. intros x H. apply Rle_trans with (bpow radix2 (1 - 25)); [apply rnd32_err; [simpl; lra|lia]|]. change (bpow radix2 (1 - 25)) with (/ 16777216). unfold u24. lra. Qed.
Lemma r32e8 : forall x, Rabs x <= 8 -> Rabs (rnd32 x - x) <= 4 * u24.
Proof. intros x H. apply Rle_trans with (bpow radix2 (3 - 25)); [apply rnd32_err; [simpl; lra|lia]|]. change (bpow radix2 (3 - 25)) with (/ 4194304). unfold u24. lra. Qed.
Lemma u_small : 0 < u24 /\ u24 <= / 16000000 /\ tiny <= u24 / 50000.
Proof. unfold u24, tiny. lra. Qed.

(** a difference of floats: relative errors *)
Lemma diff32_rel : forall x y : f32, Rabs (rnd32 (b2r x - b2r y) - (b2r x - b2r y)) <= 2 * u24 * Rabs (b2r x - b2r y).
Proof.
  intros x y. set (t := (b2r x - b2r y)%R) in *. destruct (Rle_lt_dec (Rabs t) (bpow radix2 (24 + -149))) as [Lo|Hi].
  - rewrite rnd32_id; [rewrite Rminus_diag_eq, Rabs_R0 by reflexivity; apply Rmult_le_pos; [unfold u24; lra|apply Rabs_pos]|].
    unfold t, Rminus. apply FLT_format_plus_small; [exact eq_refl|apply rep32_b2r|apply rep32_opp, rep32_b2r|]. exact Lo.
  - pose proof (relative_error_N_FLT radix2 (-149) 24 eq_refl (fun x => negb (Z.even x)) t) as Er.
    change (round radix2 (FLT_exp (-149) 24) ZnearestE t) with (rnd32 t) in Er. assert (bpow radix2 (-149 + 24 - 1) <= Rabs t) as Hl by (apply Rle_trans with (2 := Rlt_le _ _ Hi); apply bpow_le; lia).
    specialize (Er Hl). change (bpow radix2 (- (24) + 1)) with (/ 8388608)%R in Er. apply Rle_trans with (1 := Er). apply Rmult_le_compat_r; [apply Rabs_pos|unfold u24; lra].
Qed.
Lemma grid_low : forall x y : f32, b2r x - b2r y <> 0 -> bpow radix2 (-149) <= Rabs (b2r x - b2r y).
Proof.
  intros x y N. destruct (diff_grid x y) as (j & Ej). rewrite Ej in *. rewrite Rabs_mult, (Rabs_pos_eq (bpow radix2 (-149))) by apply bpow_ge_0.
  assert (j <> 0%Z) as Nj by (intros ->; apply N; simpl; ring). rewrite <- abs_IZR. assert (1 <= IZR (Z.abs j)) by (apply (IZR_le 1); lia).
  rewrite <- (Rmult_1_l (bpow radix2 (-149))) at 1. apply Rmult_le_compat_r; [apply bpow_ge_0|assumption].
Qed.
Lemma rel64 : forall t, bpow radix2 (-149) <= Rabs t -> Rabs (rnd64 t - t) <= tiny * Rabs t.
Proof.
  intros t H. pose proof (relative_error_N_FLT radix2 (-1074) 53 eq_refl (fun x => negb (Z.even x)) t) as Er.
  change (round radix2 (FLT_exp (-1074) 53) ZnearestE t) with (rnd64 t) in Er. assert (bpow radix2 (-1074 + 53 - 1) <= Rabs t) as Hl by (apply Rle_trans with (2 := H); apply bpow_le; lia).
  specialize (Er Hl). change (bpow radix2 (- (53) + 1)) with (/ 4503599627370496)%R in Er. apply Rle_trans with (1 := Er). apply Rmult_le_compat_r; [apply Rabs_pos|unfold tiny; lra].
Qed.

(** a quotient of two numbers with relative errors *)
Lemma quot_close : forall a a' D D', 0 < D -> Rabs a <= D -> Rabs (a' - a) <= 2 * u24 * D -> Rabs (D' - D) <= 2 * u24 * D ->
  0 < D' /\ Rabs (a' / D' - a / D) <= 5 * u24.
Proof.
  intros a a' D D' HD Ha Ea ED. destruct u_small as (U0 & U1 & _). apply Rabs_le_inv in Ea. apply Rabs_le_inv in ED. apply Rabs_le_inv in Ha.
  assert (u24 * D <= / 16000000 * D) as K by (apply Rmult_le_compat_r; lra). assert (0 < u24 * D) as K0 by (apply Rmult_lt_0_compat; lra).
  assert (0 < D') as HD' by lra. split; [exact HD'|].
  replace (a' / D' - a / D) with (((a' - a) - a / D * (D' - D)) / D') by (field; lra).
  assert (-1 <= a / D <= 1) as Q by (apply ratio1; lra). set (q := a / D) in *. clearbody q.
  assert (Rabs (q * (D' - D)) <= 2 * u24 * D) as Eq.
  { rewrite Rabs_mult. apply Rle_trans with (1 * Rabs (D' - D)); [apply Rmult_le_compat_r; [apply Rabs_pos|apply Rabs_le; lra]|]. rewrite Rmult_1_l. apply Rabs_le. lra. }
  apply Rabs_le_inv in Eq. set (z := q * (D' - D)) in *. clearbody z. unfold Rdiv. rewrite Rabs_mult, (Rabs_pos_eq (/ D')) by (apply Rlt_le, Rinv_0_lt_compat; exact HD').
  apply Rmult_le_reg_r with D'; [exact HD'|]. rewrite Rmult_assoc, Rinv_l, Rmult_1_r by lra.
  apply Rle_trans with (4 * u24 * D); [apply Rabs_le; lra|].
  (* 4 D <= 5 D' *)
  replace (4 * u24 * D) with (u24 * (4 * D)) by ring. replace (5 * u24 * D') with (u24 * (5 * D')) by ring. apply Rmult_le_compat_l; lra.
Qed.

(** *** The colour circle *)
Definition lim (x : R) : R := Rmax 0 (Rmin 1 x).
Definition kr (x : R) : R := lim (Rabs (x - 3) - 1).
Definition kg (x : R) : R := lim (2 - Rabs (x - 2)).
Definition kb (x : R) : R := lim (2 - Rabs (x - 4)).
Ltac circle := unfold kr, kg, kb, lim, Rmax, Rmin, Rabs; repeat match goal with |- context [if ?c then _ else _] => destruct c | H : context [if ?c then _ else _] |- _ => destruct c end; lra.
Lemma lim_unit : forall x, 0 <= lim x <= 1.
Proof. intros. circle. Qed.
Lemma lim_lip : forall a b e, Rabs (a - b) <= e -> Rabs (lim a - lim b) <= e.
Proof. intros a b e H. apply Rabs_le_inv in H. apply Rabs_le. unfold lim, Rmax, Rmin. repeat destruct (Rle_dec _ _); lra. Qed.
Lemma abs_lip : forall a b c e, Rabs (a - b) <= e -> Rabs (Rabs (a - c) - Rabs (b - c)) <= e.
Proof. intros a b c e H. apply Rle_trans with (2 := H). replace (a - b) with ((a - c) - (b - c)) by ring. apply Rabs_triang_inv2. Qed.
Definition near3 (e : R) (x y : R) : Prop := Rabs (kr x - kr y) <= e /\ Rabs (kg x - kg y) <= e /\ Rabs (kb x - kb y) <= e.
Lemma near3_lip : forall a b e, Rabs (a - b) <= e -> near3 e a b.
Proof.
  intros a b e H. unfold near3, kr, kg, kb. split; [|split]; apply lim_lip.
  - pose proof (abs_lip a b 3 e H) as K. apply Rabs_le_inv in K. apply Rabs_le. lra.
  - pose proof (abs_lip a b 2 e H) as K. apply Rabs_le_inv in K. apply Rabs_le. lra.
  - pose proof (abs_lip a b 4 e H) as K. apply Rabs_le_inv in K. apply Rabs_le. lra.
Qed.
Lemma near3_turn : forall e a b, near3 e a 6 -> near3 e b 0 -> near3 e a 0 /\ near3 e b 6.
Proof.
  intros e a b. assert (kr 6 = kr 0 /\ kg 6 = kg 0 /\ kb 6 = kb 0) as (E1 & E2 & E3) by (repeat split; circle).
  unfold near3. rewrite E1, E2, E3. auto.
Qed.
Lemma near3_trans : forall e f a b c, near3 e a b -> near3 f b c -> near3 (e + f) a c.
Proof.
  unfold near3. intros e f a b c (A1 & A2 & A3) (B1 & B2 & B3).
  split; [|split]; [replace (kr a - kr c) with ((kr a - kr b) + (kr b - kr c)) by ring|replace (kg a - kg c) with ((kg a - kg b) + (kg b - kg c)) by ring|replace (kb a - kb c) with ((kb a - kb b) + (kb b - kb c)) by ring];
  eapply Rle_trans; try apply Rabs_triang; apply Rplus_le_compat; assumption.
Qed.
Lemma near3_sym : forall e a b, near3 e a b -> near3 e b a.
Proof. unfold near3. intros e a b (A & B & C). rewrite (Rabs_minus_sym (kr b)), (Rabs_minus_sym (kg b)), (Rabs_minus_sym (kb b)). auto. Qed.
Lemma near3_le : forall e f a b, near3 e a b -> e <= f -> near3 f a b.
Proof. unfold near3. intros e f a b (A & B & C) H. repeat split; lra. Qed.

(** a colour is on the circle at [H]: its largest component is [x], its smallest [n] *)
Definition on_circle (r g b x n H : R) : Prop := r = n + (x - n) * kr H /\ g = n + (x - n) * kg H /\ b = n + (x - n) * kb H.
(** the hue of a colour with a largest component [x] and spread [D], turns ignored *)
Definition hue_of (r g b x D : R) : R :=
  if Req_bool r x then (g - b) / D else if Req_bool g x then 2 + (b - r) / D else 4 + (r - g) / D.
Lemma hue_right : forall r g b x n, n < x -> (r = x \/ g = x \/ b = x) -> (r = n \/ g = n \/ b = n) -> n <= r <= x -> n <= g <= x -> n <= b <= x ->
  let H := hue_of r g b x (x - n) in
  -1 <= H <= 5 /\ (0 <= H -> on_circle r g b x n H) /\ (H < 0 -> on_circle r g b x n (6 + H)) /\ (H < 0 -> r = x /\ g < b).
Proof.
  intros r g b x n Hn Ex En Hr Hg Hb. cbv zeta. set (D := x - n). assert (0 < D) as HD by (unfold D; lra).
  assert (forall a, D * (a / D) = a) as Q by (intros; field; lra).
  unfold hue_of. destruct (Req_bool_spec r x) as [Er|Nr]; [|destruct (Req_bool_spec g x) as [Eg|Ng]].
  - assert (-1 <= (g - b) / D <= 1) as B by (apply ratio1; unfold D; lra). pose proof (Q (g - b)) as Eq. set (q := (g - b) / D) in *. clearbody q.
    split; [lra|]. assert (0 < q * D \/ q = 0 \/ q * D < 0) as Sg by (destruct (Rtotal_order q 0) as [?|[?|?]]; [right; right; nra|right; left; assumption|left; nra]).
    split; [|split].
    + intros P. assert (b = n) as ->. { destruct Sg as [?|[->|?]]; [|lra|exfalso; nra]. lra. }
      assert (kr q = 1 /\ kg q = q /\ kb q = 0) as (K1 & K2 & K3) by (repeat split; circle). unfold on_circle. rewrite K1, K2, K3. unfold D in *. repeat split; lra.
    + intros P. assert (g = n) as -> by (assert (q * D < 0) by nra; lra).
      assert (kr (6 + q) = 1 /\ kg (6 + q) = 0 /\ kb (6 + q) = - q) as (K1 & K2 & K3) by (repeat split; circle). unfold on_circle. rewrite K1, K2, K3. unfold D in *. repeat split; lra.
    + intros P. split; [exact Er|]. assert (q * D < 0) by nra. lra.
  - assert (-1 <= (b - r) / D <= 1) as B by (apply ratio1; unfold D; lra). pose proof (Q (b - r)) as Eq. set (q := (b - r) / D) in *. clearbody q.
    split; [lra|]. split; [|split; intros; exfalso; lra]. intros _.
    destruct (Rle_lt_dec 0 q) as [P|P].
    + assert (r = n) as ->. { assert (0 <= q * D) by nra. lra. }
      assert (kr (2 + q) = 0 /\ kg (2 + q) = 1 /\ kb (2 + q) = q) as (K1 & K2 & K3) by (repeat split; circle). unfold on_circle. rewrite K1, K2, K3. unfold D in *. repeat split; lra.
    + assert (b = n) as -> by (assert (q * D < 0) by nra; lra).
      assert (kr (2 + q) = - q /\ kg (2 + q) = 1 /\ kb (2 + q) = 0) as (K1 & K2 & K3) by (repeat split; circle). unfold on_circle. rewrite K1, K2, K3. unfold D in *. repeat split; lra.
  - assert (b = x) as Eb by (destruct Ex as [?|[?|?]]; [contradiction|contradiction|assumption]).
    assert (-1 <= (r - g) / D <= 1) as B by (apply ratio1; unfold D; lra). pose proof (Q (r - g)) as Eq. set (q := (r - g) / D) in *. clearbody q.
    split; [lra|]. split; [|split; intros; exfalso; lra]. intros _.
    destruct (Rle_lt_dec 0 q) as [P|P].
    + assert (g = n) as ->. { assert (0 <= q * D) by nra. lra. }
      assert (kr (4 + q) = q /\ kg (4 + q) = 0 /\ kb (4 + q) = 1) as (K1 & K2 & K3) by (repeat split; circle). unfold on_circle. rewrite K1, K2, K3. unfold D in *. repeat split; lra.
    + assert (r = n) as -> by (assert (q * D < 0) by nra; lra).
      assert (kr (4 + q) = 0 /\ kg (4 + q) = - q /\ kb (4 + q) = 1) as (K1 & K2 & K3) by (repeat split; circle). unfold on_circle. rewrite K1, K2, K3. unfold D in *. repeat split; lra.
Qed.

Definition turned (H : R) : R := if Rlt_bool H 0 then 6 + H else H.
Lemma turn_close : forall q H y a c, Rabs (q - H) <= a -> -1 <= H -> Rabs (y - turned q) <= c -> near3 (2 * a + c) y (turned H).
Proof.
  intros q H y a c Hq HH Hy. assert (0 <= a) as Ha by (apply Rle_trans with (2 := Hq); apply Rabs_pos). assert (0 <= c) as Hc by (apply Rle_trans with (2 := Hy); apply Rabs_pos).
  unfold turned in *. apply Rabs_le_inv in Hq. apply Rabs_le_inv in Hy. destruct (Rlt_bool_spec q 0); destruct (Rlt_bool_spec H 0).
  - apply near3_lip. apply Rabs_le. lra.
  - assert (near3 (a + c) y 6) as A by (apply near3_lip, Rabs_le; lra). assert (near3 a H 0) as B by (apply near3_lip, Rabs_le; lra).
    apply (near3_le _ (a + c)) in B; [|lra]. destruct (near3_turn _ _ _ A B) as (A' & _). assert (near3 a H 0) as B' by (apply near3_lip, Rabs_le; lra).
    eapply near3_le; [apply (near3_trans _ _ _ _ _ A' (near3_sym _ _ _ B'))|lra].
  - assert (near3 (a + c) y 0) as A by (apply near3_lip, Rabs_le; lra). assert (near3 a (6 + H) 6) as B by (apply near3_lip, Rabs_le; lra). assert (near3 (a + c) (6 + H) 6) as B2 by (apply (near3_le _ _ _ _ B); lra).
    destruct (near3_turn _ _ _ B2 A) as (_ & A'). eapply near3_le; [apply (near3_trans _ _ _ _ _ A' (near3_sym _ _ _ B))|lra].
  - apply near3_lip. apply Rabs_le. lra.
Qed.

Lemma clamp_id : forall x : f32, zf 0 x 1 -> clamp01 mix64 x = x.
Proof.
  intros x (F & H). simpl in H. unfold clamp01. change (@nlt (sng mix64)) with flt. change (@nofZ (sng mix64)) with f_of_Z. destruct (zf_Z 1) as ((G1 & _) & W1); [lia|]. destruct (zf_Z 0) as ((G0 & _) & W0); [lia|].
  rewrite !flt_spec, W0, W1 by auto. destruct (Rlt_bool_spec 1 (b2r x)); [lra|]. destruct (Rlt_bool_spec (b2r x) 0); [lra|]. reflexivity.
Qed.
Lemma max3_in : forall r g b : f32, cmax3 mix64 r g b = r \/ cmax3 mix64 r g b = g \/ cmax3 mix64 r g b = b.
Proof. intros r g b. unfold cmax3, cmax. repeat match goal with |- context [if ?c then _ else _] => destruct c end; auto. Qed.
Lemma min3_in : forall r g b : f32, cmin3 mix64 r g b = r \/ cmin3 mix64 r g b = g \/ cmin3 mix64 r g b = b.
Proof. intros r g b. unfold cmin3, cmin. repeat match goal with |- context [if ?c then _ else _] => destruct c end; auto. Qed.

(** the difference of two components over the spread *)
Lemma over_f : forall (x y dl : f32) (X N : R), fin x -> fin y -> fin dl -> 0 <= N -> N < X -> X <= 1 -> N <= b2r x <= X -> N <= b2r y <= X -> Rabs (b2r dl - (X - N)) <= 2 * u24 * (X - N) ->
  zf (-2) (fdiv (fsub x y) dl) 2 /\ Rabs (b2r (fdiv (fsub x y) dl) - (b2r x - b2r y) / (X - N)) <= 6 * u24.
Proof.
  intros x y dl X N Fx Fy Fd N0 HN X1 Hx Hy Ed. destruct u_small as (U0 & U1 & _).
  destruct (zf_sub (-1) 1 x y Fx Fy) as ((Fs & _) & Vs); [split; lia|simpl; lra|].
  assert (Rabs (b2r x - b2r y) <= X - N) as Ba by (apply Rabs_le; lra).
  destruct (quot_close (b2r x - b2r y) (b2r (fsub x y)) (X - N) (b2r dl)) as (Pd & Eq); [lra|exact Ba| |exact Ed|].
  { rewrite Vs. apply Rle_trans with (1 := diff32_rel x y). apply Rmult_le_compat_l; [lra|exact Ba]. }
  apply Rabs_le_inv in Eq. assert (-1 <= (b2r x - b2r y) / (X - N) <= 1) as Bq by (apply ratio1; [lra|apply Rabs_le_inv; exact Ba]).
  destruct (zf_div (-2) 2 (fsub x y) dl Fs Fd) as (Zq & Vq); [lra|split; lia|simpl; lra|]. split; [exact Zq|]. rewrite Vq.
  pose proof (r32e2 (b2r (fsub x y) / b2r dl)) as Er. specialize (Er ltac:(apply Rabs_le; lra)). apply Rabs_le_inv in Er. apply Rabs_le. lra.
Qed.
(** the same with the quotient computed in double *)
Lemma over_d : forall (x y : f32) (dl : f64) (X N : R), fin x -> fin y -> fin dl -> 0 <= N -> N < X -> X <= 1 -> N <= b2r x <= X -> N <= b2r y <= X -> Rabs (b2r dl - (X - N)) <= 2 * u24 * (X - N) ->
  zd (-2) (ddiv (d_of_f (fsub x y)) dl) 2 /\ Rabs (b2r (ddiv (d_of_f (fsub x y)) dl) - (b2r x - b2r y) / (X - N)) <= 6 * u24.
Proof.
  intros x y dl X N Fx Fy Fd N0 HN X1 Hx Hy Ed. destruct u_small as (U0 & U1 & U2).
  destruct (zf_sub (-1) 1 x y Fx Fy) as ((Fs & _) & Vs); [split; lia|simpl; lra|]. destruct (d_of_f_exact _ Fs) as (Ws & Gs).
  assert (Rabs (b2r x - b2r y) <= X - N) as Ba by (apply Rabs_le; lra).
  destruct (quot_close (b2r x - b2r y) (b2r (fsub x y)) (X - N) (b2r dl)) as (Pd & Eq); [lra|exact Ba| |exact Ed|].
  { rewrite Vs. apply Rle_trans with (1 := diff32_rel x y). apply Rmult_le_compat_l; [lra|exact Ba]. }
  apply Rabs_le_inv in Eq. assert (-1 <= (b2r x - b2r y) / (X - N) <= 1) as Bq by (apply ratio1; [lra|apply Rabs_le_inv; exact Ba]).
  destruct (zd_div (-2) 2 (d_of_f (fsub x y)) dl Gs Fd) as (Zq & Vq); [lra|split; lia|rewrite Ws; simpl; lra|]. split; [exact Zq|]. rewrite Vq, Ws.
  pose proof (r64e (b2r (fsub x y) / b2r dl)) as Er. specialize (Er ltac:(apply Rabs_le; lra)). apply Rabs_le_inv in Er. apply Rabs_le. lra.
Qed.

(** *** From RGB to HSV *)
Definition hue_hsv (r g b mx dl : f32) : f32 :=
  if feq r mx then fdiv (fsub g b) dl
  else if feq g mx then f_of_d (dadd (d_of_Z 2) (d_of_f (fdiv (fsub b r) dl)))
  else if feq b mx then f_of_d (dadd (d_of_Z 4) (d_of_f (fdiv (fsub r g) dl))) else f_of_Z 0.
Lemma shift_close : forall c (q : f32) Q, (Z.abs c <= 4)%Z -> zf (-2) q 2 -> Rabs (b2r q - Q) <= 6 * u24 ->
  zf (c - 2) (f_of_d (dadd (d_of_Z c) (d_of_f q))) (c + 2) /\ Rabs (b2r (f_of_d (dadd (d_of_Z c) (d_of_f q))) - (IZR c + Q)) <= 11 * u24.
Proof.
  intros c q Q Hc (Fq & Hq) E. simpl in Hq. destruct u_small as (U0 & U1 & U2). destruct (d_of_f_exact q Fq) as (Wq & Gq). destruct (zd_Z c) as ((Gc & _) & Wc); [lia|].
  assert (-4 <= IZR c <= 4) as Bc by (split; [apply (IZR_le (-4))|apply (IZR_le _ 4)]; lia).
  destruct (zd_add (c - 2) (c + 2) (d_of_Z c) (d_of_f q) Gc Gq) as (Za & Va); [split; lia|rewrite Wc, Wq, minus_IZR, plus_IZR; lra|].
  destruct (zf_nar _ _ _ Za) as (Zn & Vn); [split; lia|]. split; [exact Zn|]. rewrite Vn. destruct Za as (_ & Ba). rewrite minus_IZR, plus_IZR in Ba.
  pose proof (r32e8 (b2r (dadd (d_of_Z c) (d_of_f q)))) as E1. specialize (E1 ltac:(apply Rabs_le; lra)). rewrite Va in *. rewrite Wc, Wq in *.
  pose proof (r64e (IZR c + b2r q)) as E2. specialize (E2 ltac:(apply Rabs_le; lra)). apply Rabs_le_inv in E, E1, E2. apply Rabs_le. lra.
Qed.
Lemma hue_hsv_close : forall (r g b mx dl : f32) (N : R), fin r -> fin g -> fin b -> fin dl -> mx = r \/ mx = g \/ mx = b ->
  0 <= N -> N < b2r mx -> b2r mx <= 1 -> N <= b2r r <= b2r mx -> N <= b2r g <= b2r mx -> N <= b2r b <= b2r mx -> Rabs (b2r dl - (b2r mx - N)) <= 2 * u24 * (b2r mx - N) ->
  zf (-2) (hue_hsv r g b mx dl) 6 /\ Rabs (b2r (hue_hsv r g b mx dl) - hue_of (b2r r) (b2r g) (b2r b) (b2r mx) (b2r mx - N)) <= 11 * u24.
Proof.
  intros r g b mx dl N Fr Fg Fb Fd In N0 HN X1 Hr Hg Hb Ed. assert (fin mx) as Fx by (destruct In as [->|[->| ->]]; assumption). destruct u_small as (U0 & U1 & _).
  unfold hue_hsv, hue_of. rewrite !feq_spec by auto. destruct (Req_bool_spec (b2r r) (b2r mx)) as [Er|Nr]; [|destruct (Req_bool_spec (b2r g) (b2r mx)) as [Eg|Ng]].
  - destruct (over_f g b dl (b2r mx) N) as (Z & E); auto. split; [eapply zf_weak; [exact Z|lia|lia]|]. apply Rle_trans with (1 := E). lra.
  - destruct (over_f b r dl (b2r mx) N) as (Z & E); auto. destruct (shift_close 2 _ _ ltac:(lia) Z E) as (Z' & E'). split; [eapply zf_weak; [exact Z'|lia|lia]|exact E'].
  - assert (b2r b = b2r mx) as Eb by (destruct In as [->|[->| ->]]; [contradiction|contradiction|reflexivity]). rewrite (Req_bool_true _ _ Eb).
    destruct (over_f r g dl (b2r mx) N) as (Z & E); auto. destruct (shift_close 4 _ _ ltac:(lia) Z E) as (Z' & E'). split; [eapply zf_weak; [exact Z'|lia|lia]|exact E'].
Qed.
Lemma threshold : fin (dlit 1 10000) /\ 9999 / 100000000 <= b2r (dlit 1 10000) <= 10001 / 100000000.
Proof. split; [vm_compute; reflexivity|]. vm_compute. split; lra. Qed.

(** the largest and the smallest component of a colour *)
Definition ends (r g b X N : R) : Prop :=
  (X = r \/ X = g \/ X = b) /\ (N = r \/ N = g \/ N = b) /\ N <= r <= X /\ N <= g <= X /\ N <= b <= X.
Lemma to_hsv_close : forall r g b : f32, zf 0 r 1 -> zf 0 g 1 -> zf 0 b 1 ->
  exists (h s mx : f32) (N : R), rgb_to_hsv mix64 (r, g, b) = (h, s, mx) /\ ends (b2r r) (b2r g) (b2r b) (b2r mx) N /\
    ((s = f_of_Z 0 /\ b2r mx - N <= / 9990 /\ h = f_of_Z 0) \/
     (/ 10010 <= b2r mx - N /\ Rabs (b2r s - (b2r mx - N) / b2r mx) <= 6 * u24 /\ near3 (31 * u24) (6 * b2r h) (turned (hue_of (b2r r) (b2r g) (b2r b) (b2r mx) (b2r mx - N))))).
Proof.
  intros r g b Zr Zg Zb. unfold rgb_to_hsv. rewrite (clamp_id r Zr), (clamp_id g Zg), (clamp_id b Zb).
  destruct (max3 r g b Zr Zg Zb) as (Zx & Xr & Xg & Xb). destruct (min3 r g b Zr Zg Zb) as (Zn & Nr & Ng & Nb). pose proof (max3_in r g b) as Ix. pose proof (min3_in r g b) as In.
  set (mx := cmax3 mix64 r g b) in *. set (mn := cmin3 mix64 r g b) in *. clearbody mx mn. change (car (sng mix64)) with f32 in *. cbv zeta.
  change (@nlt (dbl mix64)) with dlt. change (@neqb (sng mix64)) with feq. change (@nar mix64) with f_of_d. change (@wid mix64) with d_of_f. change (@nofZ (dbl mix64)) with d_of_Z. change (@nofZ (sng mix64)) with f_of_Z. change (@dec mix64) with dlit.
  change (@nsub (sng mix64)) with fsub. change (@ndiv (sng mix64)) with fdiv. change (@ndiv (dbl mix64)) with ddiv. change (@nadd (dbl mix64)) with dadd.
  destruct Zx as (Fx & Hx). destruct Zn as (Fn & Hn). destruct Zr as (Fr & Hr). destruct Zg as (Fg & Hg). destruct Zb as (Fb & Hb). simpl in Hx, Hn, Hr, Hg, Hb. destruct u_small as (U0 & U1 & U2).
  assert (ends (b2r r) (b2r g) (b2r b) (b2r mx) (b2r mn)) as En.
  { unfold ends. split; [destruct Ix as [->|[->| ->]]; auto|]. split; [destruct In as [->|[->| ->]]; auto|]. lra. }
  destruct (zf_sub 0 1 mx mn Fx Fn) as ((Fd & Hd) & Vd); [split; lia|simpl; lra|]. pose proof (diff32_rel mx mn) as Ed. rewrite <- Vd in Ed. rewrite (Rabs_pos_eq (b2r mx - b2r mn)) in Ed by lra.
  set (dl := fsub mx mn) in *. clearbody dl. simpl in Hd. destruct threshold as (Ft & Bt). destruct (d_of_f_exact dl Fd) as (Wd & Gd).
  assert (2 * u24 * (b2r mx - b2r mn) <= / 8000000 * (b2r mx - b2r mn)) as Su by (apply Rmult_le_compat_r; lra). pose proof Ed as Ed0. apply Rabs_le_inv in Ed0.
  rewrite dlt_spec, Wd by auto. destruct (Rlt_bool_spec (b2r (dlit 1 10000)) (b2r dl)) as [T|T].
  - fold (hue_hsv r g b mx dl).
    assert (b2r mn < b2r mx) as Lt by lra. destruct (hue_hsv_close r g b mx dl (b2r mn)) as (Zq & Eq); auto; try lra.
    assert (exists h1 : f32, (if feq r mx then if dlt (d_of_f (fdiv (fsub g b) dl)) (d_of_Z 0) then f_of_d (dadd (d_of_f (fdiv (fsub g b) dl)) (d_of_Z 6)) else fdiv (fsub g b) dl
      else if feq g mx then f_of_d (dadd (d_of_Z 2) (d_of_f (fdiv (fsub b r) dl))) else if feq b mx then f_of_d (dadd (d_of_Z 4) (d_of_f (fdiv (fsub r g) dl))) else f_of_Z 0) = h1 /\
      zf 0 h1 6 /\ Rabs (b2r h1 - turned (b2r (hue_hsv r g b mx dl))) <= 5 * u24) as (h1 & -> & (Fh & Bh) & Eh).
    { eexists. split; [reflexivity|]. destruct (zd_Z 0) as ((G0 & _) & W0); [lia|]. destruct (zd_Z 6) as ((G6 & _) & W6); [lia|].
      destruct (hue_right (b2r r) (b2r g) (b2r b) (b2r mx) (b2r mn)) as (Bhu & _ & _ & _); try lra; [destruct Ix as [->|[->| ->]]; auto|destruct In as [->|[->| ->]]; auto|].
      revert Zq Eq Bhu. unfold hue_hsv, hue_of. rewrite !feq_spec by auto. destruct (Req_bool_spec (b2r r) (b2r mx)) as [Er|Nr'].
      - intros (Fq & Bq) Eq Bhu. set (q := fdiv (fsub g b) dl) in *. clearbody q. simpl in Bq. destruct (d_of_f_exact q Fq) as (Wq & Gq). assert (-1 <= (b2r g - b2r b) / (b2r mx - b2r mn) <= 1) as Br by (apply ratio1; lra).
        apply Rabs_le_inv in Eq. rewrite dlt_spec, Wq, W0 by auto. unfold turned. destruct (Rlt_bool_spec (b2r q) 0).
        + destruct (zd_add 0 6 (d_of_f q) (d_of_Z 6) Gq G6) as (Za & Va); [split; lia|rewrite W6, Wq; simpl; lra|]. destruct (zf_nar _ _ _ Za) as (Zh & Vh); [split; lia|]. split; [exact Zh|]. rewrite Vh. destruct Za as (_ & Ba). simpl in Ba.
          pose proof (r32e8 (b2r (dadd (d_of_f q) (d_of_Z 6))) ltac:(apply Rabs_le; lra)) as E1. rewrite Va in *. rewrite Wq, W6 in *. pose proof (r64e (b2r q + 6) ltac:(apply Rabs_le; lra)) as E2. apply Rabs_le_inv in E1, E2. apply Rabs_le. lra.
        + split; [split; [exact Fq|simpl; lra]|]. rewrite Rminus_diag_eq, Rabs_R0 by reflexivity. lra.
      - intros (Fq & Bq) Eq Bhu. set (q := if Req_bool (b2r g) (b2r mx) then f_of_d _ else _) in *. assert (0 <= b2r q) as P.
        { apply Rabs_le_inv in Eq. destruct (Req_bool_spec (b2r g) (b2r mx)) as [Eg|Ng'].
          - assert (-1 <= (b2r b - b2r r) / (b2r mx - b2r mn) <= 1) by (apply ratio1; lra). lra.
          - assert (-1 <= (b2r r - b2r g) / (b2r mx - b2r mn) <= 1) by (apply ratio1; lra). lra. }
        clearbody q. simpl in Bq. split; [split; [exact Fq|simpl; lra]|]. unfold turned. destruct (Rlt_bool_spec (b2r q) 0); [lra|]. rewrite Rminus_diag_eq, Rabs_R0 by reflexivity. lra. }
    simpl in Bh. destruct (d_of_f_exact h1 Fh) as (Wh & Gh). destruct (zd_Z 6) as ((G6 & _) & W6); [lia|].
    destruct (zd_div 0 1 (d_of_f h1) (d_of_Z 6) Gh G6) as (Zq6 & Vq6); [rewrite W6; simpl; lra|split; lia|rewrite Wh, W6; simpl; apply ratio01; lra|]. destruct (zf_nar _ _ _ Zq6) as (Z6 & V6); [split; lia|].
    eexists _, _, mx, (b2r mn). split; [reflexivity|]. split; [exact En|]. right. split; [lra|]. split.
    + (* saturation *)
      destruct (quot_close (b2r mx - b2r mn) (b2r dl) (b2r mx) (b2r mx)) as (_ & Ec); [lra|apply Rabs_le; lra| | |].
      { apply Rle_trans with (1 := Ed). apply Rmult_le_compat_l; lra. } { rewrite Rminus_diag_eq, Rabs_R0 by reflexivity. apply Rmult_le_pos; lra. }
      assert (0 <= (b2r mx - b2r mn) / b2r mx <= 1) as Bs by (apply ratio01; lra). apply Rabs_le_inv in Ec.
      destruct (zf_div (-2) 2 dl mx Fd Fx) as (_ & Vs); [lra|split; lia|simpl; lra|]. rewrite Vs. pose proof (r32e2 (b2r dl / b2r mx) ltac:(apply Rabs_le; lra)) as Er. apply Rabs_le_inv in Er. apply Rabs_le. lra.
    + (* hue *)
      apply (near3_le (2 * (11 * u24) + 9 * u24)); [|lra]. apply turn_close with (q := b2r (hue_hsv r g b mx dl)); [exact Eq| |].
      * destruct (hue_right (b2r r) (b2r g) (b2r b) (b2r mx) (b2r mn)) as (Bhu & _ & _ & _); try lra; [destruct Ix as [->|[->| ->]]; auto|destruct In as [->|[->| ->]]; auto].
      * rewrite V6. destruct Zq6 as (_ & B6). simpl in B6. pose proof (r32e (b2r (ddiv (d_of_f h1) (d_of_Z 6))) ltac:(apply Rabs_le; lra)) as E1. rewrite Vq6 in *. rewrite Wh, W6 in *.
        assert (0 <= b2r h1 / 6 <= 1) as B7 by (apply ratio01; lra). pose proof (r64e (b2r h1 / 6) ltac:(apply Rabs_le; lra)) as E2. apply Rabs_le_inv in E1, E2, Eh. apply Rabs_le. lra.
  - eexists _, _, mx, (b2r mn). split; [reflexivity|]. split; [exact En|]. left. split; [reflexivity|]. split; [lra|reflexivity].
Qed.

(** *** From HSV to RGB *)
Lemma hue_in : forall h : f32, zf 0 h 1 ->
  zd 0 (d_of_f (f_of_d (dsub (d_of_f h) (dfloor (d_of_f h))))) 1 /\ b2r (d_of_f (f_of_d (dsub (d_of_f h) (dfloor (d_of_f h))))) <= 1 - u24 /\
  near3 0 (6 * b2r (d_of_f (f_of_d (dsub (d_of_f h) (dfloor (d_of_f h)))))) (6 * b2r h).
Proof.
  intros h (Fh & Bh). simpl in Bh. destruct (d_of_f_exact h Fh) as (Wh & Gh). destruct (dfloor_val (d_of_f h) Gh) as (Gf & Vf & _); [rewrite Wh; apply Rabs_le; lra|]. rewrite Wh in Vf.
  pose proof (Zfloor_lb (b2r h)) as Lb. pose proof (Zfloor_ub (b2r h)) as Ub.
  destruct (zd_sub 0 1 (d_of_f h) _ Gh Gf) as (Zd & Vd); [split; lia|rewrite Wh, Vf; simpl; lra|]. destruct (zf_nar _ _ _ Zd) as (Zd' & Vd'); [split; lia|]. destruct (zd_wid _ _ _ Zd') as (Zq & Vq).
  split; [exact Zq|]. rewrite Vq, Vd', Vd, Wh, Vf. destruct (Req_dec (b2r h) 1) as [E|N].
  - rewrite E, Zfloor_IZR. assert (1 - 1 = IZR 0) as -> by (simpl; ring). rewrite (rnd64_id (IZR 0)) by (apply rep64_IZR; lia). rewrite (rnd32_id (IZR 0)) by (apply rep32_IZR; lia). simpl.
    split; [unfold u24; lra|]. replace (6 * 0) with 0 by ring. replace (6 * 1) with 6 by ring. assert (near3 0 0 0 /\ near3 0 6 6) as (A & B) by (split; apply near3_lip; rewrite Rminus_diag_eq, Rabs_R0 by reflexivity; lra). apply (near3_turn _ _ _ B A).
  - assert (b2r h < 1) as L by lra. assert (Zfloor (b2r h) = 0%Z) as -> by (apply Zfloor_imp; change (0 + 1)%Z with 1%Z; lra).
    assert (rnd32 (rnd64 (b2r h - 0)) = b2r h) as ->. { rewrite Rminus_0_r. rewrite <- Wh at 1. rewrite (rnd64_id (b2r (d_of_f h))) by apply rep64_b2r. rewrite Wh. apply rnd32_id, rep32_b2r. }
    split; [|apply near3_lip; rewrite Rminus_diag_eq, Rabs_R0 by reflexivity; lra].
    destruct (Rle_lt_dec (/ 2) (b2r h)) as [A|A]; [|unfold u24; lra]. destruct (upper_half h ltac:(lra)) as (j & Ej & Bj). assert (j <= 16777215)%Z as J by (assert (j <> 16777216)%Z by (intros ->; apply N; rewrite Ej; unfold u24; field); lia).
    apply IZR_le in J. rewrite Ej. unfold u24. lra.
Qed.

Lemma part_close : forall (v s : f32) (f : f64) F, zf 0 v 1 -> zf 0 s 1 -> zd 0 f 1 -> Rabs (b2r f - F) <= 3 * tiny ->
  Rabs (b2r (f_of_d (dmul (d_of_f v) (dsub (d_of_Z 1) (dmul (d_of_f s) f)))) - b2r v * (1 - b2r s * F)) <= u24.
Proof.
  intros v s f F (Fv & Hv) (Fs & Hs) (Ff & Hf) E. simpl in Hv, Hs, Hf. destruct u_small as (U0 & U1 & U2). destruct (zd_Z 1) as ((G1 & _) & W1); [lia|].
  destruct (d_of_f_exact v Fv) as (Wv & Gv). destruct (d_of_f_exact s Fs) as (Ws & Gs).
  assert (0 <= b2r s * b2r f <= 1) as B1 by (split; [apply Rmult_le_pos; lra|rewrite <- (Rmult_1_r 1); apply Rmult_le_compat; lra]).
  destruct (zd_mul 0 1 (d_of_f s) f Gs Ff) as ((Fm & Bm) & Vm); [split; lia|rewrite Ws; simpl; lra|]. simpl in Bm. rewrite Ws in Vm. pose proof (r64e (b2r s * b2r f) ltac:(apply Rabs_le; lra)) as E1. rewrite <- Vm in E1. set (m := dmul (d_of_f s) f) in *. clearbody m.
  destruct (zd_sub 0 1 (d_of_Z 1) m G1 Fm) as ((Fc & Bc) & Vc); [split; lia|rewrite W1; simpl; lra|]. simpl in Bc. rewrite W1 in Vc. pose proof (r64e (1 - b2r m) ltac:(apply Rabs_le; lra)) as E2. rewrite <- Vc in E2. set (c := dsub (d_of_Z 1) m) in *. clearbody c.
  assert (0 <= b2r v * b2r c <= 1) as B2 by (split; [apply Rmult_le_pos; lra|rewrite <- (Rmult_1_r 1); apply Rmult_le_compat; lra]).
  destruct (zd_mul 0 1 (d_of_f v) c Gv Fc) as (Zp & Vp); [split; lia|rewrite Wv; simpl; lra|]. rewrite Wv in Vp. pose proof (r64e (b2r v * b2r c) ltac:(apply Rabs_le; lra)) as E3. rewrite <- Vp in E3.
  destruct (zf_nar _ _ _ Zp) as (_ & Vn); [split; lia|]. rewrite Vn. destruct Zp as (_ & Bp). simpl in Bp. pose proof (r32e (b2r (dmul (d_of_f v) c)) ltac:(apply Rabs_le; lra)) as E4. set (p := b2r (dmul (d_of_f v) c)) in *. clearbody p.
  assert (Rabs (b2r s * b2r f - b2r s * F) <= 3 * tiny) as E5. { rewrite <- Rmult_minus_distr_l, Rabs_mult, (Rabs_pos_eq (b2r s)) by lra. rewrite <- (Rmult_1_l (3 * tiny)). apply Rmult_le_compat; try lra. apply Rabs_pos. }
  assert (Rabs (b2r v * b2r c - b2r v * (1 - b2r s * F)) <= 5 * tiny) as E6.
  { rewrite <- Rmult_minus_distr_l, Rabs_mult, (Rabs_pos_eq (b2r v)) by lra. rewrite <- (Rmult_1_l (5 * tiny)). apply Rmult_le_compat; try lra; [apply Rabs_pos|]. apply Rabs_le_inv in E1, E2, E5. apply Rabs_le. lra. }
  apply Rabs_le_inv in E3, E4, E6. apply Rabs_le. lra.
Qed.

Definition hsv_part (v s k : R) : R := v * (1 - s * (1 - k)).
Lemma from_hsv_close : forall h s v : f32, zf 0 h 1 -> zf 0 s 1 -> zf 0 v 1 ->
  exists r g b : f32, hsv_to_rgb mix64 (h, s, v) = Ok (r, g, b) /\
    Rabs (b2r r - hsv_part (b2r v) (b2r s) (kr (6 * b2r h))) <= 2 * u24 /\ Rabs (b2r g - hsv_part (b2r v) (b2r s) (kg (6 * b2r h))) <= 2 * u24 /\ Rabs (b2r b - hsv_part (b2r v) (b2r s) (kb (6 * b2r h))) <= 2 * u24.
Proof.
  intros h s v Zh Zs Zv. destruct u_small as (U0 & U1 & U2). unfold hsv_to_rgb. rewrite (clamp_id s Zs), (clamp_id v Zv). cbv zeta.
  change (@nlt (dbl mix64)) with dlt. change (@neqb (sng mix64)) with feq. change (@neqb (dbl mix64)) with deq. change (@nar mix64) with f_of_d. change (@wid mix64) with d_of_f. change (@nofZ (dbl mix64)) with d_of_Z. change (@nofZ (sng mix64)) with f_of_Z. change (@flo mix64) with dfloor. change (@to_i mix64) with d_to_int.
  change (@nsub (dbl mix64)) with dsub. change (@nmul (dbl mix64)) with dmul.
  destruct (zf_Z 0) as ((G0 & _) & W0); [lia|]. pose proof Zs as (Fs & Bs). pose proof Zv as (Fv & Bv). simpl in Bs, Bv. rewrite feq_spec, W0 by auto. destruct (Req_bool_spec (b2r s) 0) as [E0|_].
  { exists v, v, v. split; [reflexivity|]. unfold hsv_part. rewrite E0. repeat split; rewrite Rmult_0_l, Rminus_0_r, Rmult_1_r, Rminus_diag_eq, Rabs_R0 by reflexivity; lra. }
  destruct (hue_in h Zh) as ((Fw & Bw) & Lw & Nw). set (w := d_of_f (f_of_d (dsub (d_of_f h) (dfloor (d_of_f h))))) in *. clearbody w. simpl in Bw.
  destruct (zd_Z 1) as ((G1 & _) & W1); [lia|]. destruct (zd_Z 6) as ((G6 & _) & W6); [lia|]. rewrite deq_spec, W1 by auto. destruct (Req_bool_spec (b2r w) 1) as [E1|_]; [lra|].
  (* the position on the circle *)
  destruct (zd_mul 0 6 w (d_of_Z 6) Fw G6) as ((Fp & Bp) & Vp); [split; lia|rewrite W6; simpl; lra|]. simpl in Bp. rewrite W6 in Vp. pose proof (r64e (b2r w * 6) ltac:(apply Rabs_le; lra)) as Ep. rewrite <- Vp in Ep. set (p := dmul w (d_of_Z 6)) in *. clearbody p.
  assert (near3 tiny (b2r p) (6 * b2r h)) as Np. { eapply near3_le; [apply (near3_trans tiny 0 _ (6 * b2r w)); [apply near3_lip; rewrite (Rmult_comm 6); exact Ep|exact Nw]|lra]. }
  assert (exists i, (0 <= i <= 6)%Z /\ d_to_int p = Ok i /\ IZR i <= b2r p < IZR i + 1) as (i & Bi & -> & Hi).
  { exists (Zfloor (b2r p)). assert (0 <= Zfloor (b2r p))%Z as Z0 by (apply Zfloor_lub; simpl; lra). assert (Zfloor (b2r p) <= 6)%Z as Z6 by (apply le_IZR; pose proof (Zfloor_lb (b2r p)); lra).
    split; [lia|]. split; [|split; [apply Zfloor_lb|apply Zfloor_ub]]. unfold d_to_int. rewrite <- (Ztrunc_floor (b2r p)) by lra. apply d_to_Z_ok; [exact Fp|]. rewrite Ztrunc_floor by lra. unfold INT_MIN, INT_MAX. lia. }
  cbn [obind].
  destruct (zd_Z i) as ((Gi & _) & Wi); [lia|]. destruct (zd_sub 0 1 p (d_of_Z i) Fp Gi) as (Zf & Vf); [split; lia|rewrite Wi; simpl; lra|]. rewrite Wi in Vf. pose proof (r64e (b2r p - IZR i) ltac:(apply Rabs_le; lra)) as Ef. rewrite <- Vf in Ef. set (f := dsub p (d_of_Z i)) in *. clearbody f.
  assert (b2r p < 6) as P6 by (apply Rabs_le_inv in Ep; lra). assert (i <= 5)%Z as I5 by (assert (i < 6)%Z by (apply lt_IZR; lra); lia).
  (* the three levels *)
  pose proof (zd_wid 0 1 s Zs) as (Ds & Ws). pose proof (zd_wid 0 1 v Zv) as (Dv & Wv).
  assert (Rabs (b2r (f_of_d (dmul (d_of_f v) (dsub (d_of_Z 1) (d_of_f s)))) - hsv_part (b2r v) (b2r s) 0) <= u24) as Ew.
  { destruct Ds as (Gs & Cs). destruct Dv as (Gv & Cv). simpl in Cs, Cv. destruct (zd_sub 0 1 (d_of_Z 1) (d_of_f s) G1 Gs) as ((Fc & Bc) & Vc); [split; lia|rewrite W1; simpl; lra|]. simpl in Bc. rewrite W1, Ws in Vc. pose proof (r64e (1 - b2r s) ltac:(apply Rabs_le; lra)) as E2. rewrite <- Vc in E2. set (c := dsub (d_of_Z 1) (d_of_f s)) in *. clearbody c.
    assert (0 <= b2r v * b2r c <= 1) as B2 by (split; [apply Rmult_le_pos; lra|rewrite <- (Rmult_1_r 1); apply Rmult_le_compat; lra]).
    destruct (zd_mul 0 1 (d_of_f v) c Gv Fc) as (Zp & Vq); [split; lia|rewrite Wv; simpl; lra|]. rewrite Wv in Vq. pose proof (r64e (b2r v * b2r c) ltac:(apply Rabs_le; lra)) as E3. rewrite <- Vq in E3.
    destruct (zf_nar _ _ _ Zp) as (_ & Vn); [split; lia|]. rewrite Vn. destruct Zp as (_ & Bq). simpl in Bq. pose proof (r32e (b2r (dmul (d_of_f v) c)) ltac:(apply Rabs_le; lra)) as E4. set (x := b2r (dmul (d_of_f v) c)) in *. clearbody x.
    assert (Rabs (b2r v * b2r c - b2r v * (1 - b2r s)) <= 5 * tiny) as E6.
    { rewrite <- Rmult_minus_distr_l, Rabs_mult, (Rabs_pos_eq (b2r v)) by lra. rewrite <- (Rmult_1_l (5 * tiny)). apply Rmult_le_compat; try lra; [apply Rabs_pos|]. apply Rabs_le_inv in E2. apply Rabs_le. lra. }
    unfold hsv_part. rewrite Rminus_0_r, Rmult_1_r. apply Rabs_le_inv in E3, E4, E6. apply Rabs_le. lra. }
  assert (Rabs (b2r (f_of_d (dmul (d_of_f v) (dsub (d_of_Z 1) (dmul (d_of_f s) f)))) - hsv_part (b2r v) (b2r s) (IZR i + 1 - b2r p)) <= u24) as Eq.
  { unfold hsv_part. replace (1 - (IZR i + 1 - b2r p)) with (b2r p - IZR i) by ring. apply part_close; auto. apply Rle_trans with (1 := Ef). unfold tiny. lra. }
  assert (Rabs (b2r (f_of_d (dmul (d_of_f v) (dsub (d_of_Z 1) (dmul (d_of_f s) (dsub (d_of_Z 1) f))))) - hsv_part (b2r v) (b2r s) (b2r p - IZR i)) <= u24) as Et.
  { unfold hsv_part. destruct Zf as (Ff & Bf). simpl in Bf. destruct (zd_sub 0 1 (d_of_Z 1) f G1 Ff) as (Zc & Vc); [split; lia|rewrite W1; simpl; lra|]. rewrite W1 in Vc. pose proof (r64e (1 - b2r f) ltac:(apply Rabs_le; lra)) as E2. rewrite <- Vc in E2.
    apply part_close; auto. apply Rabs_le_inv in E2, Ef. apply Rabs_le. lra. }
  assert (hsv_part (b2r v) (b2r s) 1 = b2r v) as Ev by (unfold hsv_part; ring). assert (Rabs (b2r v - hsv_part (b2r v) (b2r s) 1) <= u24) as Ev' by (rewrite Ev, Rminus_diag_eq, Rabs_R0 by reflexivity; lra). clear Ev.
  assert (forall k x k', Rabs (x - hsv_part (b2r v) (b2r s) k) <= u24 -> k = kr (b2r p) /\ k' = kr (6 * b2r h) \/ k = kg (b2r p) /\ k' = kg (6 * b2r h) \/ k = kb (b2r p) /\ k' = kb (6 * b2r h) -> Rabs (x - hsv_part (b2r v) (b2r s) k') <= 2 * u24) as Move.
  { intros k x k' Ex K. assert (Rabs (k - k') <= tiny) as Ek by (destruct Np as (N1 & N2 & N3); destruct K as [(-> & ->)|[(-> & ->)|(-> & ->)]]; assumption).
    assert (Rabs (hsv_part (b2r v) (b2r s) k - hsv_part (b2r v) (b2r s) k') <= tiny) as Em.
    { unfold hsv_part. replace (b2r v * (1 - b2r s * (1 - k)) - b2r v * (1 - b2r s * (1 - k'))) with (b2r v * b2r s * (k - k')) by ring. rewrite Rabs_mult, Rabs_pos_eq by (apply Rmult_le_pos; lra).
      rewrite <- (Rmult_1_l tiny). apply Rmult_le_compat; [apply Rmult_le_pos; lra|apply Rabs_pos| |exact Ek]. rewrite <- (Rmult_1_r 1). apply Rmult_le_compat; lra. }
    apply Rabs_le_inv in Ex, Em. apply Rabs_le. lra. }
  set (lw := f_of_d (dmul (d_of_f v) (dsub (d_of_Z 1) (d_of_f s)))) in *. set (lq := f_of_d (dmul (d_of_f v) (dsub (d_of_Z 1) (dmul (d_of_f s) f)))) in *. set (lt := f_of_d (dmul (d_of_f v) (dsub (d_of_Z 1) (dmul (d_of_f s) (dsub (d_of_Z 1) f))))) in *. clearbody lw lq lt.
  clear Np Nw Ef Ep Vp Vf.
  assert (i = 0 \/ i = 1 \/ i = 2 \/ i = 3 \/ i = 4 \/ i = 5)%Z as Cases by lia.
  destruct Cases as [->|[->|[->|[->|[->| ->]]]]]; simpl in Hi, Eq, Et; eexists _, _, _; (split; [reflexivity|]).
  - split; [apply (Move _ _ _ Ev')|split; [apply (Move _ _ _ Et)|apply (Move _ _ _ Ew)]]; [left|right; left|right; right]; (split; [clear Move; circle|reflexivity]).
  - split; [apply (Move _ _ _ Eq)|split; [apply (Move _ _ _ Ev')|apply (Move _ _ _ Ew)]]; [left|right; left|right; right]; (split; [clear Move; circle|reflexivity]).
  - split; [apply (Move _ _ _ Ew)|split; [apply (Move _ _ _ Ev')|apply (Move _ _ _ Et)]]; [left|right; left|right; right]; (split; [clear Move; circle|reflexivity]).
  - split; [apply (Move _ _ _ Ew)|split; [apply (Move _ _ _ Eq)|apply (Move _ _ _ Ev')]]; [left|right; left|right; right]; (split; [clear Move; circle|reflexivity]).
  - split; [apply (Move _ _ _ Et)|split; [apply (Move _ _ _ Ew)|apply (Move _ _ _ Ev')]]; [left|right; left|right; right]; (split; [clear Move; circle|reflexivity]).
  - split; [apply (Move _ _ _ Ev')|split; [apply (Move _ _ _ Ew)|apply (Move _ _ _ Eq)]]; [left|right; left|right; right]; (split; [clear Move; circle|reflexivity]).
Qed.

(** *** HSV and back *)
Definition moved (d : R) (c c' : f32 * f32 * f32) : Prop :=
  let '(r, g, b) := c in let '(r', g', b') := c' in Rabs (b2r r' - b2r r) <= d /\ Rabs (b2r g' - b2r g) <= d /\ Rabs (b2r b' - b2r b) <= d.
Lemma on_turned : forall r g b x n, n < x -> ends r g b x n -> on_circle r g b x n (turned (hue_of r g b x (x - n))).
Proof.
  intros r g b x n Hn (Ex & En & Hr & Hg & Hb). destruct (hue_right r g b x n Hn) as (_ & A & B & _); auto; [destruct Ex as [->|[->| ->]]; auto|destruct En as [->|[->| ->]]; auto|].
  unfold turned. destruct (Rlt_bool_spec (hue_of r g b x (x - n)) 0); auto.
Qed.
Lemma k_unit : forall x, 0 <= kr x <= 1 /\ 0 <= kg x <= 1 /\ 0 <= kb x <= 1.
Proof. intros x. unfold kr, kg, kb. split; [|split]; apply lim_unit. Qed.
Lemma unit_zf : forall x y z : f32, unit3 (x, y, z) -> zf 0 x 1 /\ zf 0 y 1 /\ zf 0 z 1.
Proof. auto. Qed.
Lemma hsv_round_float : forall r g b : f32, zf 0 r 1 -> zf 0 g 1 -> zf 0 b 1 ->
  exists c', hsv_to_rgb mix64 (rgb_to_hsv mix64 (r, g, b)) = Ok c' /\ moved (/ 9970) (r, g, b) c' /\
    (forall X N, ends (b2r r) (b2r g) (b2r b) X N -> X = N \/ / 9990 < X - N -> moved (/ 250000) (r, g, b) c').
Proof.
  intros r g b Zr Zg Zb. destruct u_small as (U0 & U1 & U2). pose proof (to_hsv_unit r g b (proj1 Zr) (proj1 Zg) (proj1 Zb)) as Un. destruct (to_hsv_close r g b Zr Zg Zb) as (h & s & mx & N & E & En & K).
  rewrite E in *. apply unit_zf in Un. destruct Un as (Zh & Zs & Zx). destruct (from_hsv_close h s mx Zh Zs Zx) as (r' & g' & b' & E' & Kr & Kg & Kb).
  exists (r', g', b'). split; [exact E'|]. pose proof En as (I1 & I2 & Br & Bg & Bb). destruct K as [(Es & Sm & _)|(Sp & Es & Eh)].
  - assert (b2r s = 0) as E0 by (rewrite Es; apply (zf_Z 0); lia). assert (forall k, hsv_part (b2r mx) 0 k = b2r mx) as Hp by (intros; unfold hsv_part; ring). rewrite E0, Hp in Kr, Kg, Kb. apply Rabs_le_inv in Kr, Kg, Kb.
    split; [unfold moved; repeat split; apply Rabs_le; lra|]. intros X N' En' G. assert (X = b2r mx /\ N' = N) as (-> & ->). { destruct En' as (J1 & J2 & J3 & J4 & J5). split; [destruct J1 as [->|[->| ->]]; destruct I1 as [I|[I|I]]; lra|destruct J2 as [->|[->| ->]]; destruct I2 as [I|[I|I]]; lra]. }
    destruct G as [G|G]; [|lra]. unfold moved. repeat split; apply Rabs_le; lra.
  - assert (N < b2r mx) as Lt by lra. destruct (on_turned _ _ _ _ _ Lt En) as (Or & Og & Ob). set (T := turned _) in *. clearbody T. set (X := b2r mx) in *. destruct Zs as (_ & Bs). destruct Zx as (_ & Bx). fold X in Bx. simpl in Bs, Bx. clearbody X.
    assert (forall k k', Rabs (k' - k) <= 31 * u24 -> 0 <= k <= 1 -> Rabs (hsv_part X (b2r s) k' - (N + (X - N) * k)) <= 37 * u24) as P.
    { intros k k' Ek Bk. unfold hsv_part. assert (0 <= N) as N0 by (destruct I2 as [->|[->| ->]]; [apply (proj2 Zr)|apply (proj2 Zg)|apply (proj2 Zb)]).
      replace (X * (1 - b2r s * (1 - k')) - (N + (X - N) * k)) with (X * b2r s * (k' - k) - X * (1 - k) * (b2r s - (X - N) / X)) by (field; lra).
      assert (Rabs (X * b2r s * (k' - k)) <= 31 * u24) as A. { rewrite Rabs_mult, Rabs_pos_eq by (apply Rmult_le_pos; lra). rewrite <- (Rmult_1_l (31 * u24)). apply Rmult_le_compat; [apply Rmult_le_pos; lra|apply Rabs_pos| |exact Ek]. rewrite <- (Rmult_1_r 1). apply Rmult_le_compat; lra. }
      assert (Rabs (X * (1 - k) * (b2r s - (X - N) / X)) <= 6 * u24) as B. { rewrite Rabs_mult, Rabs_pos_eq by (apply Rmult_le_pos; lra). rewrite <- (Rmult_1_l (6 * u24)). apply Rmult_le_compat; [apply Rmult_le_pos; lra|apply Rabs_pos| |exact Es]. rewrite <- (Rmult_1_r 1). apply Rmult_le_compat; lra. }
      apply Rabs_le_inv in A, B. apply Rabs_le. lra. }
    destruct (k_unit T) as (U3 & U4 & U5). destruct Eh as (E3 & E4 & E5).
    pose proof (P _ _ E3 U3) as Pr. pose proof (P _ _ E4 U4) as Pg. pose proof (P _ _ E5 U5) as Pb. rewrite <- Or in Pr. rewrite <- Og in Pg. rewrite <- Ob in Pb.
    apply Rabs_le_inv in Kr, Kg, Kb, Pr, Pg, Pb. assert (moved (/ 250000) (r, g, b) (r', g', b')) as M by (unfold moved; repeat split; apply Rabs_le; lra).
    split; [|intros; exact M]. destruct M as (M1 & M2 & M3). unfold moved. repeat split; lra.
Qed.

(** *** From RGB to HSL *)
Lemma r64e2 : forall x, Rabs x <= 2 -> Rabs (rnd64 x - x) <= / 9007199254740992.
Proof. intros x H. apply Rle_trans with (bpow radix2 (1 - 54)); [apply rnd64_err; [simpl; lra|lia]|]. change (bpow radix2 (1 - 54)) with (/ 9007199254740992). lra. Qed.
Lemma below_one : forall h : f32, 0 <= b2r h < 1 -> b2r h <= 1 - u24.
Proof.
  intros h H. destruct (Rle_lt_dec (/ 2) (b2r h)) as [A|A]; [|unfold u24; lra]. destruct (upper_half h ltac:(lra)) as (j & Ej & Bj).
  assert (j <= 16777215)%Z as J by (assert (j <> 16777216)%Z by (intros ->; assert (b2r h = 1) by (rewrite Ej; unfold u24; field); lra); lia). apply IZR_le in J. rewrite Ej. unfold u24. lra.
Qed.
(** the saturation *)
Lemma sat_close : forall (num den : f64) a D, fin num -> fin den -> 0 < D -> 0 <= a <= D -> Rabs (b2r num - a) <= 2 * u24 * D -> Rabs (b2r den - D) <= 2 * u24 * D ->
  Rabs (b2r (f_of_d (ddiv num den)) - a / D) <= 7 * u24.
Proof.
  intros num den a D Fn Fd HD Ha En Ed. destruct u_small as (U0 & U1 & U2). destruct (quot_close a (b2r num) D (b2r den)) as (P & Eq); auto; [apply Rabs_le; lra|]. assert (0 <= a / D <= 1) as B by (apply ratio01; lra). apply Rabs_le_inv in Eq.
  destruct (zd_div (-2) 2 num den Fn Fd) as (Zq & Vq); [lra|split; lia|simpl; lra|]. destruct (zf_nar _ _ _ Zq) as (_ & Vn); [split; lia|]. rewrite Vn. destruct Zq as (_ & Bq). simpl in Bq.
  pose proof (r32e2 (b2r (ddiv num den)) ltac:(apply Rabs_le; lra)) as E1. rewrite Vq in *. pose proof (r64e (b2r num / b2r den) ltac:(apply Rabs_le; lra)) as E2. apply Rabs_le_inv in E1, E2. apply Rabs_le. lra.
Qed.
Lemma shift_close_d : forall c (q : f64) Q, (Z.abs c <= 4)%Z -> zd (-2) q 2 -> Rabs (b2r q - Q) <= 6 * u24 ->
  zf (c - 2) (f_of_d (dadd (d_of_Z c) q)) (c + 2) /\ Rabs (b2r (f_of_d (dadd (d_of_Z c) q)) - (IZR c + Q)) <= 11 * u24.
Proof.
  intros c q Q Hc (Fq & Hq) E. simpl in Hq. destruct u_small as (U0 & U1 & U2). destruct (zd_Z c) as ((Gc & _) & Wc); [lia|].
  assert (-4 <= IZR c <= 4) as Bc by (split; [apply (IZR_le (-4))|apply (IZR_le _ 4)]; lia).
  destruct (zd_add (c - 2) (c + 2) (d_of_Z c) q Gc Fq) as (Za & Va); [split; lia|rewrite Wc, minus_IZR, plus_IZR; lra|].
  destruct (zf_nar _ _ _ Za) as (Zn & Vn); [split; lia|]. split; [exact Zn|]. rewrite Vn. destruct Za as (_ & Ba). rewrite minus_IZR, plus_IZR in Ba.
  pose proof (r32e8 (b2r (dadd (d_of_Z c) q))) as E1. specialize (E1 ltac:(apply Rabs_le; lra)). rewrite Va in *. rewrite Wc in *.
  pose proof (r64e (IZR c + b2r q)) as E2. specialize (E2 ltac:(apply Rabs_le; lra)). apply Rabs_le_inv in E, E1, E2. apply Rabs_le. lra.
Qed.
Definition hue_hsl (r g b mx : f32) (dl : f64) : f32 :=
  if deq (d_of_f r) (d_of_f mx) then f_of_d (ddiv (d_of_f (fsub g b)) dl)
  else if deq (d_of_f g) (d_of_f mx) then f_of_d (dadd (d_of_Z 2) (ddiv (d_of_f (fsub b r)) dl))
  else if deq (d_of_f b) (d_of_f mx) then f_of_d (dadd (d_of_Z 4) (ddiv (d_of_f (fsub r g)) dl)) else f_of_Z 0.
Lemma hue_hsl_close : forall (r g b mx : f32) (dl : f64) (N : R), fin r -> fin g -> fin b -> fin dl -> mx = r \/ mx = g \/ mx = b ->
  0 <= N -> N < b2r mx -> b2r mx <= 1 -> N <= b2r r <= b2r mx -> N <= b2r g <= b2r mx -> N <= b2r b <= b2r mx -> Rabs (b2r dl - (b2r mx - N)) <= 2 * u24 * (b2r mx - N) ->
  zf (-2) (hue_hsl r g b mx dl) 6 /\ Rabs (b2r (hue_hsl r g b mx dl) - hue_of (b2r r) (b2r g) (b2r b) (b2r mx) (b2r mx - N)) <= 11 * u24.
Proof.
  intros r g b mx dl N Fr Fg Fb Fd In N0 HN X1 Hr Hg Hb Ed. assert (fin mx) as Fx by (destruct In as [->|[->| ->]]; assumption). destruct u_small as (U0 & U1 & U2).
  destruct (d_of_f_exact mx Fx) as (Wx & Gx). destruct (d_of_f_exact r Fr) as (Wr & Gr). destruct (d_of_f_exact g Fg) as (Wg & Gg). destruct (d_of_f_exact b Fb) as (Wb & Gb).
  unfold hue_hsl, hue_of. rewrite !deq_spec, Wx, Wr, Wg, Wb by auto. destruct (Req_bool_spec (b2r r) (b2r mx)) as [Er|Nr]; [|destruct (Req_bool_spec (b2r g) (b2r mx)) as [Eg|Ng]].
  - destruct (over_d g b dl (b2r mx) N) as (Z & E); auto. destruct (zf_nar _ _ _ Z) as (Zn & Vn); [split; lia|]. split; [eapply zf_weak; [exact Zn|lia|lia]|]. rewrite Vn. destruct Z as (_ & B). simpl in B. pose proof (r32e2 (b2r (ddiv (d_of_f (fsub g b)) dl)) ltac:(apply Rabs_le; lra)) as E1. apply Rabs_le_inv in E, E1. apply Rabs_le. lra.
  - destruct (over_d b r dl (b2r mx) N) as (Z & E); auto. destruct (shift_close_d 2 _ _ ltac:(lia) Z E) as (Z' & E'). split; [eapply zf_weak; [exact Z'|lia|lia]|exact E'].
  - assert (b2r b = b2r mx) as Eb by (destruct In as [->|[->| ->]]; [contradiction|contradiction|reflexivity]). rewrite (Req_bool_true _ _ Eb).
    destruct (over_d r g dl (b2r mx) N) as (Z & E); auto. destruct (shift_close_d 4 _ _ ltac:(lia) Z E) as (Z' & E'). split; [eapply zf_weak; [exact Z'|lia|lia]|exact E'].
Qed.
Lemma to_hsl_close : forall r g b : f32, zf 0 r 1 -> zf 0 g 1 -> zf 0 b 1 ->
  exists (h s l : f32) (X N : R), rgb_to_hsl mix64 (r, g, b) = (h, s, l) /\ ends (b2r r) (b2r g) (b2r b) X N /\ Rabs (b2r l - (X + N) / 2) <= u24 /\
    ((X = N /\ s = f_of_Z 0) \/
     (N < X /\ Rabs (b2r s - (if Rle_bool (b2r l) (/ 2) then (X - N) / (X + N) else (X - N) / (2 - X - N))) <= 7 * u24 /\ near3 (34 * u24) (6 * b2r h) (turned (hue_of (b2r r) (b2r g) (b2r b) X (X - N))))).
Proof.
  intros r g b Zr Zg Zb. unfold rgb_to_hsl. rewrite (clamp_id r Zr), (clamp_id g Zg), (clamp_id b Zb).
  destruct (max3 r g b Zr Zg Zb) as (Zx & Xr & Xg & Xb). destruct (min3 r g b Zr Zg Zb) as (Zn & Nr & Ng & Nb). pose proof (max3_in r g b) as Ix. pose proof (min3_in r g b) as In.
  set (mx := cmax3 mix64 r g b) in *. set (mn := cmin3 mix64 r g b) in *. clearbody mx mn. change (car (sng mix64)) with f32 in *. cbv zeta.
  change (@nlt (dbl mix64)) with dlt. change (@nle (dbl mix64)) with dle. change (@neqb (dbl mix64)) with deq. change (@nar mix64) with f_of_d. change (@wid mix64) with d_of_f. change (@nofZ (dbl mix64)) with d_of_Z. change (@nofZ (sng mix64)) with f_of_Z. change (@dec mix64) with dlit.
  change (@nsub (sng mix64)) with fsub. change (@ndiv (dbl mix64)) with ddiv. change (@nadd (dbl mix64)) with dadd. change (@nsub (dbl mix64)) with dsub.
  destruct Zx as (Fx & Hx). destruct Zn as (Fn & Hn). destruct Zr as (Fr & Hr). destruct Zg as (Fg & Hg). destruct Zb as (Fb & Hb). simpl in Hx, Hn, Hr, Hg, Hb. destruct u_small as (U0 & U1 & U2).
  assert (ends (b2r r) (b2r g) (b2r b) (b2r mx) (b2r mn)) as En.
  { unfold ends. split; [destruct Ix as [->|[->| ->]]; auto|]. split; [destruct In as [->|[->| ->]]; auto|]. lra. }
  destruct (d_of_f_exact mx Fx) as (Wx & Gx). destruct (d_of_f_exact mn Fn) as (Wn & Gn).
  destruct (zd_Z 0) as ((G0 & _) & W0); [lia|]. destruct (zd_Z 1) as ((G1 & _) & W1); [lia|]. destruct (zd_Z 2) as ((G2 & _) & W2); [lia|]. destruct (zd_Z 6) as ((G6 & _) & W6); [lia|].
  (* lightness *)
  destruct (zd_add 0 2 (d_of_f mx) (d_of_f mn) Gx Gn) as ((Fa & Ba) & Va); [split; lia|rewrite Wx, Wn; simpl; lra|]. rewrite Wx, Wn in Va. simpl in Ba. pose proof (r64e (b2r mx + b2r mn) ltac:(apply Rabs_le; lra)) as Ea. rewrite <- Va in Ea. set (sum := dadd (d_of_f mx) (d_of_f mn)) in *.
  destruct (zd_div 0 1 sum (d_of_Z 2) Fa G2) as (Zl & Vl); [rewrite W2; simpl; lra|split; lia|rewrite W2; simpl; lra|]. rewrite W2 in Vl. pose proof (r64e (b2r sum / 2) ltac:(apply Rabs_le; lra)) as El. rewrite <- Vl in El. destruct (zf_nar _ _ _ Zl) as ((Fl & Bl) & Vn); [split; lia|]. destruct Zl as (_ & Cl). simpl in Cl.
  pose proof (r32e (b2r (ddiv sum (d_of_Z 2))) ltac:(apply Rabs_le; lra)) as Em. rewrite <- Vn in Em. set (l := f_of_d (ddiv sum (d_of_Z 2))) in *.
  assert (Rabs (b2r l - (b2r mx + b2r mn) / 2) <= u24) as Elight by (clear - Ea El Em U0 U1 U2; apply Rabs_le_inv in Ea, El, Em; apply Rabs_le; lra). clear Em El Vl Vn.
  rewrite deq_spec, Wx, Wn by auto. destruct (Req_bool_spec (b2r mx) (b2r mn)) as [Eq|Ne].
  { eexists _, _, l, (b2r mx), (b2r mn). split; [reflexivity|]. split; [exact En|]. split; [exact Elight|]. left. split; [exact Eq|reflexivity]. }
  assert (b2r mn < b2r mx) as Lt by lra. destruct (d_of_f_exact l Fl) as (Wl & Gl). destruct half_d as (Fhalf & Vhalf). simpl in Bl.
  (* the spread *)
  destruct (zd_sub 0 1 (d_of_f mx) (d_of_f mn) Gx Gn) as ((Fd & Bd) & Vd); [split; lia|rewrite Wx, Wn; simpl; lra|]. rewrite Wx, Wn in Vd. pose proof (rel64 _ (grid_low mx mn ltac:(lra))) as Ed. rewrite <- Vd in Ed. rewrite (Rabs_pos_eq (b2r mx - b2r mn)) in Ed by lra. set (dl := dsub (d_of_f mx) (d_of_f mn)) in *. clearbody dl. simpl in Bd.
  assert (tiny * (b2r mx - b2r mn) <= u24 / 50000 * (b2r mx - b2r mn)) as Ts by (apply Rmult_le_compat_r; lra). assert (0 < u24 * (b2r mx - b2r mn)) as Us by (apply Rmult_lt_0_compat; lra).
  assert (u24 * (b2r mx - b2r mn) <= / 16000000 * (b2r mx - b2r mn)) as Vs by (apply Rmult_le_compat_r; lra).
  assert (Rabs (b2r dl - (b2r mx - b2r mn)) <= 2 * u24 * (b2r mx - b2r mn)) as Ed2 by (apply Rle_trans with (1 := Ed); lra).
  assert (b2r dl <> 0) as Nd by (clear - Ed Ts Us Vs Lt; apply Rabs_le_inv in Ed; lra).
  (* the hue *)
  rewrite (deq_spec dl) by auto. rewrite W0. destruct (Req_bool_spec (b2r dl) 0) as [E0|_]; [contradiction|].
  fold (hue_hsl r g b mx dl). destruct (hue_hsl_close r g b mx dl (b2r mn)) as ((Fq & Bq) & Eq); auto; try lra. set (q := hue_hsl r g b mx dl) in *. clearbody q. simpl in Bq.
  destruct (d_of_f_exact q Fq) as (Wq & Gq). destruct (zd_div (-1) 1 (d_of_f q) (d_of_Z 6) Gq G6) as (Zh & Vh); [rewrite W6; simpl; lra|split; lia|rewrite W6, Wq; simpl; lra|]. rewrite W6, Wq in Vh. pose proof (r64e (b2r q / 6) ltac:(apply Rabs_le; lra)) as Eh. rewrite <- Vh in Eh.
  destruct (zf_nar _ _ _ Zh) as ((Fh & Bh) & Vh'); [split; lia|]. destruct Zh as (_ & Ch). simpl in Ch, Bh. pose proof (r32e (b2r (ddiv (d_of_f q) (d_of_Z 6))) ltac:(apply Rabs_le; lra)) as Eh'. rewrite <- Vh' in Eh'. set (h := f_of_d (ddiv (d_of_f q) (d_of_Z 6))) in *. clearbody h.
  assert (Rabs (6 * b2r h - hue_of (b2r r) (b2r g) (b2r b) (b2r mx) (b2r mx - b2r mn)) <= 15 * u24) as E6 by (clear - Eq Eh Eh' U0 U1 U2; apply Rabs_le_inv in Eq, Eh, Eh'; apply Rabs_le; lra).
  destruct (d_of_f_exact h Fh) as (Wh & Gh). rewrite (dlt_spec (d_of_f h)), Wh, W0 by auto.
  eexists _, _, l, (b2r mx), (b2r mn). split; [reflexivity|]. split; [exact En|]. split; [exact Elight|]. right. split; [exact Lt|]. split.
  - (* saturation *)
    rewrite (dle_spec (d_of_f l)), Wl, Vhalf by auto. destruct (Rle_bool_spec (b2r l) (/ 2)) as [Lo|Hi].
    + apply sat_close; auto; [lra|lra| |].
      * apply Rle_trans with (1 := Ed2). apply Rmult_le_compat_l; lra.
      * assert (bpow radix2 (-149) <= b2r mx + b2r mn) as Gr.
        { apply Rle_trans with (b2r mx - b2r mn); [|lra]. rewrite <- (Rabs_pos_eq (b2r mx - b2r mn)) by lra. apply grid_low. lra. }
        pose proof (rel64 (b2r mx + b2r mn)) as Es. rewrite (Rabs_pos_eq (b2r mx + b2r mn)) in Es by lra. specialize (Es Gr). rewrite <- Va in Es. apply Rle_trans with (1 := Es). apply Rmult_le_compat_r; lra.
    + destruct (zd_sub 1 2 (d_of_Z 2) (d_of_f mx) G2 Gx) as ((Fs & Bs) & Vs'); [split; lia|rewrite W2, Wx; simpl; lra|]. rewrite W2, Wx in Vs'. pose proof (r64e2 (2 - b2r mx) ltac:(apply Rabs_le; lra)) as Es. rewrite <- Vs' in Es. set (t := dsub (d_of_Z 2) (d_of_f mx)) in *. clearbody t. simpl in Bs.
      destruct (zd_sub 0 2 t (d_of_f mn) Fs Gn) as ((Ft & Bt) & Vt); [split; lia|rewrite Wn; simpl; lra|]. rewrite Wn in Vt. pose proof (r64e2 (b2r t - b2r mn) ltac:(apply Rabs_le; lra)) as Et. rewrite <- Vt in Et. set (w := dsub t (d_of_f mn)) in *. clearbody w.
      pose proof (below_one mn ltac:(lra)) as Bn. apply sat_close; auto; [lra|lra| |].
      * apply Rle_trans with (1 := Ed2). apply Rmult_le_compat_l; lra.
      * apply Rle_trans with (2 * u24 * u24); [|apply Rmult_le_compat_l; lra]. clear - Es Et. apply Rabs_le_inv in Es, Et. apply Rabs_le. unfold u24. lra.
  - (* hue *)
    apply (near3_le (2 * (15 * u24) + 4 * u24)); [|lra]. apply turn_close with (q := 6 * b2r h); [exact E6| |].
    + destruct (hue_right (b2r r) (b2r g) (b2r b) (b2r mx) (b2r mn)) as (Bhu & _ & _ & _); try lra; [destruct Ix as [->|[->| ->]]; auto|destruct In as [->|[->| ->]]; auto].
    + unfold turned. destruct (Rlt_bool_spec (b2r h) 0) as [Neg|Pos].
      * destruct (Rlt_bool_spec (6 * b2r h) 0); [|lra]. destruct (zd_add 0 1 (d_of_f h) (d_of_Z 1) Gh G1) as (Zt & Vt); [split; lia|rewrite Wh, W1; simpl; lra|]. rewrite Wh, W1 in Vt. destruct (zf_nar _ _ _ Zt) as (_ & Vt'); [split; lia|]. destruct Zt as (_ & Bt). simpl in Bt.
        rewrite Vt'. pose proof (r32e (b2r (dadd (d_of_f h) (d_of_Z 1))) ltac:(apply Rabs_le; lra)) as E1. rewrite Vt in *. pose proof (r64e (b2r h + 1) ltac:(apply Rabs_le; lra)) as E2. clear - E1 E2 U0 U1 U2. apply Rabs_le_inv in E1, E2. apply Rabs_le. lra.
      * destruct (Rlt_bool_spec (6 * b2r h) 0); [lra|]. rewrite Rminus_diag_eq, Rabs_R0 by reflexivity. lra.
Qed.

(** *** From HSL to RGB *)
Definition ramp (y : R) : R := kg y + lim (2 - Rabs (y - 8)).
Lemma ramp_lip : forall a b e, Rabs (a - b) <= e -> Rabs (ramp a - ramp b) <= 2 * e.
Proof.
  intros a b e H. destruct (near3_lip a b e H) as (_ & A & _). assert (Rabs (lim (2 - Rabs (a - 8)) - lim (2 - Rabs (b - 8))) <= e) as B.
  { apply lim_lip. pose proof (abs_lip a b 8 e H) as K. apply Rabs_le_inv in K. apply Rabs_le. lra. }
  unfold ramp. apply Rabs_le_inv in A, B. apply Rabs_le. lra.
Qed.
Lemma ramp_unit : forall y, y <= 8 -> 0 <= ramp y <= 1.
Proof. intros y H. unfold ramp. circle. Qed.
Lemma ramp_turn : forall y, 6 < y -> y <= 8 -> ramp y = kg (y - 6).
Proof. intros y A B. unfold ramp. circle. Qed.
Lemma ramp_shift : forall p, 0 <= p -> p <= 6 -> kr p = ramp (p + 2) /\ kb p = ramp (p - 2) /\ kg p = ramp p.
Proof. intros p A B. unfold ramp. repeat split; circle. Qed.
Lemma mix_close : forall (n1 n2 : f64) (f : f64) F, zd (-1) n1 2 -> zd (-1) n2 2 -> zd 0 f 1 -> Rabs (b2r f - F) <= 2 * tiny ->
  zd (-9) (dadd n1 (dmul (dsub n2 n1) f)) 9 /\ Rabs (b2r (dadd n1 (dmul (dsub n2 n1) f)) - (b2r n1 + (b2r n2 - b2r n1) * F)) <= 9 * tiny.
Proof.
  intros n1 n2 f F (F1 & B1) (F2 & B2) (Ff & Bf) E. change (IZR (-1)) with (-1) in *. simpl in B1, B2, Bf. assert (0 < tiny <= / 1000) as U by (unfold tiny; lra).
  destruct (zd_sub (-3) 3 n2 n1 F2 F1) as ((Fs & Bs) & Vs); [split; lia|change (IZR (-3)) with (-3); simpl; lra|]. pose proof (r64e (b2r n2 - b2r n1) ltac:(apply Rabs_le; lra)) as E1. rewrite <- Vs in E1. set (t := dsub n2 n1) in *. clearbody t. change (IZR (-3)) with (-3) in Bs. simpl in Bs.
  assert (-3 <= b2r t * b2r f <= 3) as Bp. { apply Rabs_le_inv. rewrite Rabs_mult. rewrite <- (Rmult_1_r 3). apply Rmult_le_compat; try apply Rabs_pos; apply Rabs_le; lra. }
  destruct (zd_mul (-3) 3 t f Fs Ff) as ((Fp & Bq) & Vp); [split; lia|change (IZR (-3)) with (-3); simpl; lra|]. pose proof (r64e (b2r t * b2r f) ltac:(apply Rabs_le; lra)) as E2. rewrite <- Vp in E2. set (p := dmul t f) in *. clearbody p. change (IZR (-3)) with (-3) in Bq. simpl in Bq.
  destruct (zd_add (-9) 9 n1 p F1 Fp) as (Za & Va); [split; lia|change (IZR (-9)) with (-9); simpl; lra|]. split; [exact Za|]. pose proof (r64e (b2r n1 + b2r p) ltac:(apply Rabs_le; lra)) as E3. rewrite <- Va in E3.
  assert (Rabs (b2r t * b2r f - (b2r n2 - b2r n1) * F) <= 7 * tiny) as E4.
  { replace (b2r t * b2r f - (b2r n2 - b2r n1) * F) with ((b2r t - (b2r n2 - b2r n1)) * b2r f + (b2r n2 - b2r n1) * (b2r f - F)) by ring.
    assert (Rabs ((b2r t - (b2r n2 - b2r n1)) * b2r f) <= tiny) as A. { rewrite Rabs_mult. rewrite <- (Rmult_1_r tiny). apply Rmult_le_compat; try apply Rabs_pos; [exact E1|apply Rabs_le; lra]. }
    assert (Rabs ((b2r n2 - b2r n1) * (b2r f - F)) <= 3 * (2 * tiny)) as B. { rewrite Rabs_mult. apply Rmult_le_compat; try apply Rabs_pos; [apply Rabs_le; lra|exact E]. }
    apply Rabs_le_inv in A, B. apply Rabs_le. lra. }
  apply Rabs_le_inv in E2, E3, E4. apply Rabs_le. lra.
Qed.
Lemma hsl_value_close : forall n1 n2 hue : f64, zd (-1) n1 2 -> zd (-1) n2 2 -> zd (-2) hue 8 ->
  zd (-9) (hsl_value mix64 n1 n2 hue) 9 /\ Rabs (b2r (hsl_value mix64 n1 n2 hue : f64) - (b2r n1 + (b2r n2 - b2r n1) * ramp (b2r hue))) <= 20 * tiny.
Proof.
  intros n1 n2 hue Z1 Z2 (Fh & Hh). unfold hsl_value. cbv zeta. change (IZR (-2)) with (-2)%R in Hh. simpl in Hh. assert (0 < tiny <= / 1000) as U by (unfold tiny; lra).
  change (@nlt (dbl mix64)) with dlt. change (@nofZ (dbl mix64)) with d_of_Z. change (@nadd (dbl mix64)) with dadd. change (@nsub (dbl mix64)) with dsub. change (@nmul (dbl mix64)) with dmul.
  destruct (zd_Z 6) as ((G6 & _) & W6); [lia|]. destruct (zd_Z 0) as ((G0 & _) & W0); [lia|]. destruct (zd_Z 1) as ((G1 & _) & W1); [lia|]. destruct (zd_Z 3) as ((G3 & _) & W3); [lia|]. destruct (zd_Z 4) as ((G4 & _) & W4); [lia|].
  set (h := if dlt (d_of_Z 6) hue then _ else _).
  assert (zd 0 h 6 /\ Rabs (kg (b2r h) - ramp (b2r hue)) <= tiny) as ((Fq & Hq) & Eh).
  { unfold h. rewrite !dlt_spec, W6, W0 by auto. destruct (Rlt_bool_spec 6 (b2r hue)).
    - destruct (zd_sub 0 2 hue (d_of_Z 6) Fh G6) as (Zs & Vs); [split; lia|rewrite W6; simpl; lra|]. split; [eapply zd_weak; [exact Zs|lia|lia]|]. rewrite W6 in Vs. pose proof (r64e (b2r hue - 6) ltac:(apply Rabs_le; lra)) as E. rewrite <- Vs in E.
      assert (ramp (b2r hue) = kg (b2r hue - 6)) as -> by (apply ramp_turn; lra). apply (near3_lip _ _ _ E).
    - destruct (Rlt_bool_spec (b2r hue) 0).
      + destruct (zd_add 4 6 hue (d_of_Z 6) Fh G6) as (Zs & Vs); [split; lia|rewrite W6; simpl; lra|]. split; [eapply zd_weak; [exact Zs|lia|lia]|]. destruct Zs as (_ & Bs). simpl in Bs. set (x := b2r (dadd hue (d_of_Z 6))) in *. clearbody x.
        assert (ramp (b2r hue) = 0) as -> by (unfold ramp; circle). assert (kg x = 0) as -> by circle. rewrite Rminus_0_r, Rabs_R0. lra.
      + split; [split; [exact Fh|simpl; lra]|]. assert (ramp (b2r hue) = kg (b2r hue)) as -> by (unfold ramp; circle). rewrite Rminus_diag_eq, Rabs_R0 by reflexivity. lra. }
  clearbody h. simpl in Hq. destruct Z1 as (F1 & B1). destruct Z2 as (F2 & B2). change (IZR (-1)) with (-1) in *. simpl in B1, B2.
  assert (forall x, Rabs (x - (b2r n1 + (b2r n2 - b2r n1) * kg (b2r h))) <= 9 * tiny -> Rabs (x - (b2r n1 + (b2r n2 - b2r n1) * ramp (b2r hue))) <= 20 * tiny) as Fin.
  { intros x E. assert (Rabs ((b2r n2 - b2r n1) * (kg (b2r h) - ramp (b2r hue))) <= 3 * tiny) as A. { rewrite Rabs_mult. apply Rmult_le_compat; try apply Rabs_pos; [apply Rabs_le; lra|exact Eh]. }
    apply Rabs_le_inv in E, A. apply Rabs_le. lra. }
  rewrite !dlt_spec, W1, W3, W4 by auto.
  destruct (Rlt_bool_spec (b2r h) 1).
  { assert (kg (b2r h) = b2r h) as Ek by circle. destruct (mix_close n1 n2 h (kg (b2r h))) as (A & B); [split; auto|split; auto|split; [exact Fq|simpl; lra]|rewrite Ek, Rminus_diag_eq, Rabs_R0 by reflexivity; lra|]. split; [exact A|apply Fin; exact B]. }
  destruct (Rlt_bool_spec (b2r h) 3).
  { split; [split; [exact F2|change (IZR (-9)) with (-9); simpl; lra]|]. apply Fin. assert (kg (b2r h) = 1) as -> by circle. rewrite Rmult_1_r. apply Rabs_le. lra. }
  destruct (Rlt_bool_spec (b2r h) 4).
  { destruct (zd_sub 0 1 (d_of_Z 4) h G4 Fq) as (Zs & Vs); [split; lia|rewrite W4; simpl; lra|]. rewrite W4 in Vs. pose proof (r64e (4 - b2r h) ltac:(apply Rabs_le; lra)) as E. rewrite <- Vs in E.
    assert (kg (b2r h) = 4 - b2r h) as Ek by circle. destruct (mix_close n1 n2 (dsub (d_of_Z 4) h) (kg (b2r h))) as (A & B); [split; auto|split; auto|exact Zs|rewrite Ek; lra|]. split; [exact A|apply Fin; exact B]. }
  split; [split; [exact F1|change (IZR (-9)) with (-9); simpl; lra]|]. apply Fin. assert (kg (b2r h) = 0) as -> by circle. rewrite Rmult_0_r. apply Rabs_le. lra.
Qed.

Definition upper (l s : R) : R := if Rle_bool l (/ 2) then l * (1 + s) else l + s - l * s.
Definition hsl_part (l s k : R) : R := (2 * l - upper l s) + (2 * upper l s - 2 * l) * k.
Lemma upper_unit : forall l s, 0 <= l <= 1 -> 0 <= s <= 1 -> 0 <= upper l s <= 1.
Proof.
  intros l s Hl Hs. unfold upper. destruct (Rle_bool_spec l (/ 2)).
  - split; [apply Rmult_le_pos; lra|]. apply Rle_trans with (/ 2 * 2); [apply Rmult_le_compat; lra|lra].
  - assert (0 <= l * s <= s) as P. { split; [apply Rmult_le_pos; lra|]. rewrite <- (Rmult_1_l s) at 2. apply Rmult_le_compat_r; lra. } assert (0 <= (1 - l) * (1 - s)) by (apply Rmult_le_pos; lra). lra.
Qed.
Lemma lower_unit : forall l s, 0 <= l <= 1 -> 0 <= s <= 1 -> 0 <= 2 * l - upper l s <= 1.
Proof.
  intros l s Hl Hs. unfold upper. destruct (Rle_bool_spec l (/ 2)).
  - assert (0 <= l * s <= l) by (split; [apply Rmult_le_pos; lra|rewrite <- (Rmult_1_r l) at 2; apply Rmult_le_compat_l; lra]). lra.
  - assert (0 <= s * (1 - l) <= 1 - l) by (split; [apply Rmult_le_pos; lra|rewrite <- (Rmult_1_l (1 - l)) at 2; apply Rmult_le_compat_r; lra]). lra.
Qed.
(** the two ends of the colour *)
Lemma ends_close : forall l s : f32, zf 0 l 1 -> zf 0 s 1 ->
  let m2 := if dle (d_of_f l) (dlit 1 2) then dmul (d_of_f l) (dadd (d_of_Z 1) (d_of_f s)) else d_of_f (fsub (fadd l s) (fmul l s)) in
  let m1 := dsub (dmul (d_of_Z 2) (d_of_f l)) m2 in
  zd (-1) m1 2 /\ zd (-1) m2 2 /\ Rabs (b2r m2 - upper (b2r l) (b2r s)) <= 3 * u24 /\ Rabs (b2r m1 - (2 * b2r l - upper (b2r l) (b2r s))) <= 4 * u24.
Proof.
  intros l s (Fl & Bl) (Fs & Bs). simpl in Bl, Bs. cbv zeta. destruct u_small as (U0 & U1 & U2). destruct (d_of_f_exact l Fl) as (Wl & Gl). destruct (d_of_f_exact s Fs) as (Ws & Gs). destruct half_d as (Fhalf & Vhalf).
  destruct (zd_Z 1) as ((G1 & _) & W1); [lia|]. destruct (zd_Z 2) as ((G2 & _) & W2); [lia|]. pose proof (upper_unit (b2r l) (b2r s) Bl Bs) as Bu.
  assert (exists m2, (if dle (d_of_f l) (dlit 1 2) then dmul (d_of_f l) (dadd (d_of_Z 1) (d_of_f s)) else d_of_f (fsub (fadd l s) (fmul l s))) = m2 /\ zd (-1) m2 2 /\ Rabs (b2r m2 - upper (b2r l) (b2r s)) <= 3 * u24) as (m2 & -> & Z2 & E2).
  { eexists. split; [reflexivity|]. revert Bu. unfold upper. rewrite dle_spec, Wl, Vhalf by auto. destruct (Rle_bool_spec (b2r l) (/ 2)) as [Lo|Hi]; intros Bu.
    - destruct (zd_add 1 2 (d_of_Z 1) (d_of_f s) G1 Gs) as ((Fp & Bp) & Vp); [split; lia|rewrite W1, Ws; simpl; lra|]. rewrite W1, Ws in Vp. pose proof (r64e (1 + b2r s) ltac:(apply Rabs_le; lra)) as E1. rewrite <- Vp in E1. set (p := dadd (d_of_Z 1) (d_of_f s)) in *. clearbody p. simpl in Bp.
      assert (0 <= b2r l * b2r p <= 1) as K. { split; [apply Rmult_le_pos; lra|]. apply Rle_trans with (/ 2 * 2); [apply Rmult_le_compat; lra|lra]. }
      destruct (zd_mul 0 1 (d_of_f l) p Gl Fp) as (Zm & Vm); [split; lia|rewrite Wl; simpl; lra|]. rewrite Wl in Vm. pose proof (r64e (b2r l * b2r p) ltac:(apply Rabs_le; lra)) as E2. rewrite <- Vm in E2.
      split; [eapply zd_weak; [exact Zm|lia|lia]|]. assert (Rabs (b2r l * b2r p - b2r l * (1 + b2r s)) <= 1 * tiny) as A. { rewrite <- Rmult_minus_distr_l, Rabs_mult, (Rabs_pos_eq (b2r l)) by lra. apply Rmult_le_compat; try lra. apply Rabs_pos. }
      apply Rabs_le_inv in E2, A. apply Rabs_le. lra.
    - assert (0 <= b2r l * b2r s <= 1) as K by (split; [apply Rmult_le_pos; lra|rewrite <- (Rmult_1_r 1); apply Rmult_le_compat; lra]).
      destruct (zf_add 0 2 l s Fl Fs) as ((Fa & Ba) & Va); [split; lia|simpl; lra|]. pose proof (r32e2 (b2r l + b2r s) ltac:(apply Rabs_le; lra)) as E1. rewrite <- Va in E1. simpl in Ba. set (a := fadd l s) in *. clearbody a.
      destruct (zf_mul 0 1 l s Fl Fs) as ((Fm & Bm) & Vm); [split; lia|simpl; lra|]. pose proof (r32e (b2r l * b2r s) ltac:(apply Rabs_le; lra)) as E2. rewrite <- Vm in E2. simpl in Bm. set (m := fmul l s) in *. clearbody m.
      destruct (zf_sub (-1) 2 a m Fa Fm) as (Zr & Vr); [split; lia|change (IZR (-1)) with (-1); simpl; lra|]. pose proof (r32e2 (b2r a - b2r m) ltac:(apply Rabs_le; lra)) as E3. rewrite <- Vr in E3.
      destruct (zd_wid _ _ _ Zr) as (Zw & Ww). split; [exact Zw|]. rewrite Ww. apply Rabs_le_inv in E1, E2, E3. apply Rabs_le. lra. }
  destruct (zd_mul 0 2 (d_of_Z 2) (d_of_f l) G2 Gl) as ((Gt & Bt) & Vt); [split; lia|rewrite W2, Wl; simpl; lra|].
  assert (b2r (dmul (d_of_Z 2) (d_of_f l)) = 2 * b2r l)%R as Et.
  { rewrite Vt, W2, Wl. apply rnd64_id. rewrite Rmult_comm, <- Wl. change 2%R with (bpow radix2 1). apply (mult_bpow_pos_exact_FLT radix2 (-1074) 53); [apply rep64_b2r|lia]. }
  set (t := dmul (d_of_Z 2) (d_of_f l)) in *. clearbody t. pose proof Z2 as (F2 & B2). change (IZR (-1)) with (-1) in B2. simpl in B2.
  assert (-1 <= 2 * b2r l - b2r m2 <= 2) as Br by (pose proof (lower_unit (b2r l) (b2r s) Bl Bs); apply Rabs_le_inv in E2; lra).
  destruct (zd_sub (-1) 2 t m2 Gt F2) as (Z1 & V1); [split; lia|change (IZR (-1)) with (-1); rewrite Et; simpl; lra|]. split; [exact Z1|]. split; [exact Z2|]. split; [exact E2|].
  rewrite Et in V1. pose proof (r64e (2 * b2r l - b2r m2) ltac:(apply Rabs_le; lra)) as E3. rewrite <- V1 in E3. apply Rabs_le_inv in E2, E3. apply Rabs_le. lra.
Qed.

Lemma from_hsl_close : forall h s l : f32, zf 0 h 1 -> zf 0 s 1 -> zf 0 l 1 ->
  exists r g b : f32, hsl_to_rgb mix64 (h, s, l) = (r, g, b) /\
    Rabs (b2r r - hsl_part (b2r l) (b2r s) (kr (6 * b2r h))) <= 6 * u24 /\ Rabs (b2r g - hsl_part (b2r l) (b2r s) (kg (6 * b2r h))) <= 6 * u24 /\ Rabs (b2r b - hsl_part (b2r l) (b2r s) (kb (6 * b2r h))) <= 6 * u24.
Proof.
  intros h s l Zh Zs Zl. destruct u_small as (U0 & U1 & U2). unfold hsl_to_rgb. rewrite (clamp_id s Zs), (clamp_id l Zl). cbv zeta.
  change (@neqb (sng mix64)) with feq. change (@nle (dbl mix64)) with dle. change (@nar mix64) with f_of_d. change (@wid mix64) with d_of_f. change (@nofZ (dbl mix64)) with d_of_Z. change (@nofZ (sng mix64)) with f_of_Z. change (@dec mix64) with dlit.
  change (@nsub (sng mix64)) with fsub. change (@nadd (sng mix64)) with fadd. change (@nmul (sng mix64)) with fmul. change (@nadd (dbl mix64)) with dadd. change (@nsub (dbl mix64)) with dsub. change (@nmul (dbl mix64)) with dmul. change (@flo mix64) with dfloor.
  destruct (zf_Z 0) as ((G0 & _) & W0); [lia|]. pose proof Zs as (Fs & Bs). pose proof Zl as (Fl & Bl). simpl in Bs, Bl. rewrite feq_spec, W0 by auto. destruct (Req_bool_spec (b2r s) 0) as [E0|_].
  { exists l, l, l. split; [reflexivity|]. assert (forall k, hsl_part (b2r l) (b2r s) k = b2r l) as K. { intros k. unfold hsl_part, upper. rewrite E0. destruct (Rle_bool (b2r l) (/ 2)); ring. } rewrite !K. repeat split; rewrite Rminus_diag_eq, Rabs_R0 by reflexivity; lra. }
  destruct (hue_in h Zh) as ((Fw & Bw) & Lw & Nw). set (w := d_of_f (f_of_d (dsub (d_of_f h) (dfloor (d_of_f h))))) in *. clearbody w. simpl in Bw.
  destruct (ends_close l s Zl Zs) as (Z1 & Z2 & E2 & E1). cbv zeta in Z1, Z2, E1, E2. set (m2 := if dle (d_of_f l) (dlit 1 2) then _ else _) in *. set (m1 := dsub (dmul (d_of_Z 2) (d_of_f l)) m2) in *. clearbody m1. clearbody m2.
  destruct (zd_Z 2) as ((G2 & _) & W2); [lia|]. destruct (zd_Z 6) as ((G6 & _) & W6); [lia|].
  destruct (zd_mul 0 6 w (d_of_Z 6) Fw G6) as ((Fp & Bp) & Vp); [split; lia|rewrite W6; simpl; lra|]. simpl in Bp. rewrite W6 in Vp. pose proof (r64e (b2r w * 6) ltac:(apply Rabs_le; lra)) as Ep. rewrite <- Vp in Ep. set (p := dmul w (d_of_Z 6)) in *. clearbody p.
  assert (near3 tiny (b2r p) (6 * b2r h)) as Np. { eapply near3_le; [apply (near3_trans tiny 0 _ (6 * b2r w)); [apply near3_lip; rewrite (Rmult_comm 6); exact Ep|exact Nw]|lra]. }
  assert (forall (y : f64) k k', zd (-2) y 8 -> Rabs (ramp (b2r y) - k) <= 2 * tiny -> Rabs (k - k') <= tiny -> 0 <= k' <= 1 -> Rabs (b2r (f_of_d (hsl_value mix64 m1 m2 y)) - hsl_part (b2r l) (b2r s) k') <= 6 * u24) as Main.
  { intros y k k' Zy Ey Ek Bk. destruct (hsl_value_close m1 m2 y Z1 Z2 Zy) as (Zv & Ev). destruct (zf_nar _ _ _ Zv) as (_ & Vn); [split; lia|]. change (@car (dbl mix64)) with f64 in *. set (v := hsl_value mix64 m1 m2 y : f64) in *. clearbody v.
    destruct Z1 as (F1 & B1). destruct Z2 as (F2 & B2). change (IZR (-1)) with (-1) in B1, B2. simpl in B1, B2. pose proof (upper_unit (b2r l) (b2r s) Bl Bs) as Bu.
    assert (Rabs ((b2r m2 - b2r m1) * (ramp (b2r y) - k')) <= 3 * (3 * tiny)) as A. { rewrite Rabs_mult. apply Rmult_le_compat; try apply Rabs_pos; [apply Rabs_le; lra|]. apply Rabs_le_inv in Ey, Ek. apply Rabs_le. lra. }
    set (M2 := upper (b2r l) (b2r s)) in *. assert (Rabs ((b2r m1 - (2 * b2r l - M2)) * (1 - k') + (b2r m2 - M2) * k') <= 4 * u24) as B.
    { apply Rabs_le_inv in E1, E2. set (d1 := b2r m1 - (2 * b2r l - M2)) in *. set (d2 := b2r m2 - M2) in *. clearbody d1 d2. clear - E1 E2 Bk U0. apply Rabs_le.
      assert (- (4 * u24) * (1 - k') <= d1 * (1 - k') <= 4 * u24 * (1 - k')) by (split; apply Rmult_le_compat_r; lra). assert (- (4 * u24) * k' <= d2 * k' <= 4 * u24 * k') by (split; apply Rmult_le_compat_r; lra). lra. }
    assert (Rabs (b2r v - hsl_part (b2r l) (b2r s) k') <= 4 * u24 + 29 * tiny) as C.
    { unfold hsl_part. fold M2. apply Rabs_le_inv in A, B, Ev. apply Rabs_le. clear - A B Ev. split; lra. }
    assert (0 <= hsl_part (b2r l) (b2r s) k' <= 1) as Bh.
    { unfold hsl_part. fold M2. assert (0 <= 2 * b2r l - M2 <= 1) as Bm by (apply lower_unit; auto).
      clear - Bm Bu Bk. set (a := 2 * b2r l - M2) in *. replace (a + (2 * M2 - 2 * b2r l) * k') with (a * (1 - k') + M2 * k') by (unfold a; ring). clearbody a.
      assert (0 <= a * (1 - k') <= 1 * (1 - k')) by (split; [apply Rmult_le_pos; lra|apply Rmult_le_compat_r; lra]). assert (0 <= M2 * k' <= 1 * k') by (split; [apply Rmult_le_pos; lra|apply Rmult_le_compat_r; lra]). lra. }
    rewrite Vn. apply Rabs_le_inv in C. pose proof (r32e2 (b2r v) ltac:(apply Rabs_le; lra)) as E. apply Rabs_le_inv in E. apply Rabs_le. lra. }
  destruct (k_unit (6 * b2r h)) as (Kr & Kg & Kb). destruct Np as (Nr & Ng & Nb).
  eexists _, _, _. split; [reflexivity|]. split; [|split].
  - destruct (zd_add (-2) 8 p (d_of_Z 2) Fp G2) as (Zy & Vy); [split; lia|change (IZR (-2)) with (-2); rewrite W2; simpl; lra|]. rewrite W2 in Vy. pose proof (r64e (b2r p + 2) ltac:(apply Rabs_le; lra)) as E. rewrite <- Vy in E.
    apply (Main _ (kr (b2r p))); auto. assert (kr (b2r p) = ramp (b2r p + 2)) as -> by (apply ramp_shift; lra). apply ramp_lip. exact E.
  - apply (Main _ (kg (b2r p))); auto; [split; [exact Fp|change (IZR (-2)) with (-2); simpl; lra]|]. assert (kg (b2r p) = ramp (b2r p)) as -> by (apply ramp_shift; lra). rewrite Rminus_diag_eq, Rabs_R0 by reflexivity. unfold tiny. lra.
  - destruct (zd_sub (-2) 8 p (d_of_Z 2) Fp G2) as (Zy & Vy); [split; lia|change (IZR (-2)) with (-2); rewrite W2; simpl; lra|]. rewrite W2 in Vy. pose proof (r64e (b2r p - 2) ltac:(apply Rabs_le; lra)) as E. rewrite <- Vy in E.
    apply (Main _ (kb (b2r p))); auto. assert (kb (b2r p) = ramp (b2r p - 2)) as -> by (apply ramp_shift; lra). apply ramp_lip. exact E.
Qed.

(** *** HSL and back *)
Lemma hsl_round_float : forall r g b : f32, zf 0 r 1 -> zf 0 g 1 -> zf 0 b 1 -> moved (/ 250000) (r, g, b) (hsl_to_rgb mix64 (rgb_to_hsl mix64 (r, g, b))).
Proof.
  intros r g b Zr Zg Zb. destruct u_small as (U0 & U1 & U2). pose proof (to_hsl_unit r g b (proj1 Zr) (proj1 Zg) (proj1 Zb)) as Un. destruct (to_hsl_close r g b Zr Zg Zb) as (h & s & l & X & N & E & En & El & K).
  rewrite E in *. apply unit_zf in Un. destruct Un as (Zh & Zs & Zl). destruct (from_hsl_close h s l Zh Zs Zl) as (r' & g' & b' & E' & Kr & Kg & Kb). rewrite E'.
  pose proof En as (I1 & I2 & Br & Bg & Bb). destruct K as [(Exn & Es)|(Lt & Es & Eh)].
  - assert (b2r s = 0) as E0 by (rewrite Es; apply (zf_Z 0); lia). assert (forall k, hsl_part (b2r l) 0 k = b2r l) as Hp. { intros k. unfold hsl_part, upper. destruct (Rle_bool (b2r l) (/ 2)); ring. } rewrite E0, Hp in Kr, Kg, Kb.
    apply Rabs_le_inv in Kr, Kg, Kb, El. unfold moved. repeat split; apply Rabs_le; lra.
  - destruct (on_turned _ _ _ _ _ Lt En) as (Or & Og & Ob). set (T := turned _) in *. clearbody T.
    assert (0 <= N) as N0 by (destruct I2 as [->|[->| ->]]; [apply (proj2 Zr)|apply (proj2 Zg)|apply (proj2 Zb)]). assert (X <= 1) as X1 by (destruct I1 as [->|[->| ->]]; [apply (proj2 Zr)|apply (proj2 Zg)|apply (proj2 Zb)]).
    destruct Zs as (_ & Bs). destruct Zl as (_ & Bl). simpl in Bs, Bl.
    assert (Rabs (upper (b2r l) (b2r s) - X) <= 9 * u24) as Eu.
    { unfold upper. destruct (Rle_bool_spec (b2r l) (/ 2)).
      - set (S := (X - N) / (X + N)) in *. set (L := (X + N) / 2) in *. assert (0 <= L <= 1) as BL by (unfold L; lra). replace X with (L * (1 + S)) by (unfold L, S; field; lra). replace (b2r l * (1 + b2r s) - L * (1 + S)) with ((b2r l - L) * (1 + b2r s) + L * (b2r s - S)) by ring.
        assert (Rabs ((b2r l - L) * (1 + b2r s)) <= u24 * 2) as A by (rewrite Rabs_mult; apply Rmult_le_compat; try apply Rabs_pos; [exact El|apply Rabs_le; lra]). assert (Rabs (L * (b2r s - S)) <= 1 * (7 * u24)) as B by (rewrite Rabs_mult; apply Rmult_le_compat; try apply Rabs_pos; [apply Rabs_le; lra|exact Es]).
        apply Rabs_le_inv in A, B. apply Rabs_le. lra.
      - set (S := (X - N) / (2 - X - N)) in *. set (L := (X + N) / 2) in *. assert (0 <= L <= 1) as BL by (unfold L; lra). replace X with (L + S * (1 - L)) by (unfold L, S; field; lra). replace (b2r l + b2r s - b2r l * b2r s - (L + S * (1 - L))) with ((b2r l - L) * (1 - b2r s) + (1 - L) * (b2r s - S)) by ring.
        assert (Rabs ((b2r l - L) * (1 - b2r s)) <= u24 * 1) as A by (rewrite Rabs_mult; apply Rmult_le_compat; try apply Rabs_pos; [exact El|apply Rabs_le; lra]). assert (Rabs ((1 - L) * (b2r s - S)) <= 1 * (7 * u24)) as B by (rewrite Rabs_mult; apply Rmult_le_compat; try apply Rabs_pos; [apply Rabs_le; lra|exact Es]).
        apply Rabs_le_inv in A, B. apply Rabs_le. lra. }
    assert (forall k k', Rabs (k' - k) <= 34 * u24 -> 0 <= k' <= 1 -> Rabs (hsl_part (b2r l) (b2r s) k' - (N + (X - N) * k)) <= 46 * u24) as P.
    { intros k k' Ek Bk. unfold hsl_part. set (M := upper (b2r l) (b2r s)) in *. clearbody M.
      replace (2 * b2r l - M + (2 * M - 2 * b2r l) * k' - (N + (X - N) * k)) with ((2 * b2r l - M - N) * (1 - k') + (M - X) * k' + (X - N) * (k' - k)) by ring.
      assert (Rabs ((X - N) * (k' - k)) <= 1 * (34 * u24)) as A by (rewrite Rabs_mult; apply Rmult_le_compat; try apply Rabs_pos; [apply Rabs_le; lra|exact Ek]).
      apply Rabs_le_inv in Eu, El, A. assert (- (11 * u24) <= 2 * b2r l - M - N <= 11 * u24) as D1 by lra. set (d1 := 2 * b2r l - M - N) in *. assert (- (11 * u24) <= M - X <= 11 * u24) as D2 by lra. set (d2 := M - X) in *. clearbody d1 d2. clear - D1 D2 A Bk U0.
      assert (- (11 * u24) * (1 - k') <= d1 * (1 - k') <= 11 * u24 * (1 - k')) by (split; apply Rmult_le_compat_r; lra). assert (- (11 * u24) * k' <= d2 * k' <= 11 * u24 * k') by (split; apply Rmult_le_compat_r; lra). apply Rabs_le. lra. }
    destruct (k_unit (6 * b2r h)) as (U3 & U4 & U5). destruct Eh as (E3 & E4 & E5).
    pose proof (P _ _ E3 U3) as Pr. pose proof (P _ _ E4 U4) as Pg. pose proof (P _ _ E5 U5) as Pb. rewrite <- Or in Pr. rewrite <- Og in Pg. rewrite <- Ob in Pb.
    clear - Kr Kg Kb Pr Pg Pb U0 U1. apply Rabs_le_inv in Kr, Kg, Kb, Pr, Pg, Pb. unfold moved. repeat split; apply Rabs_le; lra.
Qed.
