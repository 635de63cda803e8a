(** The numbers of one dab, bit exact: fractions of the way, filters, random
    numbers, colour, opacity, anti-aliasing and snapping. *)
From Verif Require Import Base F32 F32Proofs Arith Color Mapping Settings Spectral Brush BrushProofs P_Abort P_Limits StepFacts EaselNum.
From Verif Require PaintProofs.
From Coq Require Import Reals Lra Psatz.
From Flocq Require Import Core.Core IEEE754.BinarySingleNaN.
Local Open Scope Z_scope.

(** What is needed of the C library besides [c_library]: isnan and fabsf mean what they say,
    expf(x) is between 0 and 3^n for x <= n (in particular at most 1 for x <= 0)
    and never NaN, powf of a base in [0,1] and a positive exponent is in [0,1],
    roundf is off by at most one half. *)
Record easel_maths (L : mathlib mix64) : Prop := {
  em_c : c_library L;
  em_nan : forall x : f32, nanf_ L x = is_nan x;
  em_abs : forall x : f32, fabsf_ L x = fabs x;
  em_exp : forall (x : f32) (n : nat), fin x -> (b2r x <= INR n)%R -> (n <= 80)%nat ->
    fin (expf_ L x : f32) /\ (0 <= b2r (expf_ L x : f32) <= 3 ^ n)%R;
  em_exp_num : forall x : f32, fin x -> is_nan (expf_ L x : f32) = false;
  em_pow : forall x y : f32, fin x -> fin y -> (0 <= b2r x <= 1)%R -> (0 < b2r y)%R ->
    fin (powf_ L x y : f32) /\ (0 <= b2r (powf_ L x y : f32) <= 1)%R;
  em_round : forall x : f32, fin x -> (Rabs (b2r x) <= 1000000)%R ->
    fin (roundf_ L x : f32) /\ (Rabs (b2r (roundf_ L x : f32) - b2r x) <= / 2)%R }.

(** *** Constants *)
Definition dconst_test (a b : Z) (x : f64) : bool := is_finite x && dle (d_of_Z a) x && dle x (d_of_Z b).
Lemma dconst : forall a b x, Z.abs a <= 16777216 -> Z.abs b <= 16777216 -> dconst_test a b x = true -> zd a x b.
Proof.
  intros a b x Ha Hb H. unfold dconst_test in H. apply andb_prop in H. destruct H as (H & H2). apply andb_prop in H. destruct H as (F & H1).
  destruct (d_of_Z_exact a) as (Ea & Fa); [lia|]. destruct (d_of_Z_exact b) as (Eb & Fb); [lia|].
  rewrite dle_spec, Ea in H1 by auto. rewrite dle_spec, Eb in H2 by auto.
  split; [exact F|]. split; [destruct (Rle_bool_spec (IZR a) (b2r x)); [lra|discriminate]|destruct (Rle_bool_spec (b2r x) (IZR b)); [lra|discriminate]].
Qed.
Ltac dcst := apply dconst; [lia|lia|vm_compute; reflexivity].

(** *** Multiples *)
Lemma grid32 : forall x e, rep32 x -> -126 <= e -> (bpow radix2 e <= x)%R -> exists j, x = (IZR j * bpow radix2 (e - 23))%R.
Proof.
  intros x e R He Hx. unfold rep32, generic_format in R.
  assert (0 < x)%R as Px by (pose proof (bpow_gt_0 radix2 e); lra).
  assert (e + 1 <= mag radix2 x) as Hm.
  { apply mag_ge_bpow. replace (e + 1 - 1) with e by lia. rewrite Rabs_pos_eq by lra. exact Hx. }
  set (c := cexp radix2 (FLT_exp (-149) 24) x) in *.
  assert (e - 23 <= c) as Hc by (unfold c, cexp, FLT_exp; lia).
  exists (Ztrunc (scaled_mantissa radix2 (FLT_exp (-149) 24) x) * 2 ^ (c - (e - 23))).
  rewrite R at 1. unfold F2R. cbn [Fnum Fexp]. fold c. rewrite mult_IZR, (IZR_Zpower radix2) by lia. rewrite Rmult_assoc, <- bpow_plus.
  replace (c - (e - 23) + (e - 23)) with c by lia. reflexivity.
Qed.

(** *** The number of dabs to go and the fraction of the way *)
Definition upto (x : f32) : Prop := x = B754_infinity false \/ (fin x /\ (0 <= b2r x)%R).

Lemma frac_two : forall moved todo : f32, fin moved -> (0 <= b2r moved < 1)%R -> upto todo ->
  dle (d_of_Z 1) (d_of_f (fadd moved todo)) = true ->
  exists ddab m' : f32, (if flt (f_of_Z 0) moved then (f_of_d (dsub (d_of_Z 1) (d_of_f moved)), f_of_Z 0) else (f_of_Z 1, moved)) = (ddab, m') /\
    zf 0 ddab 1 /\ fin m' /\ b2r m' = 0%R /\
    fin (fdiv ddab todo) /\ (0 <= b2r (fdiv ddab todo) <= 1025 / 512)%R /\ (b2r moved = 0%R -> (b2r (fdiv ddab todo) <= 1)%R).
Proof.
  intros m t Fm Hm Ht Hp.
  destruct (zf_Z 0) as ((F0 & _) & V0); [lia|]. destruct (zf_Z 1) as ((F1 & _) & V1); [lia|]. destruct (zd_Z 1) as ((G1 & _) & W1); [lia|].
  destruct (zd_wid 0 1 m) as ((Gm & Hm') & Vm); [split; [exact Fm|lra]|].
  set (y := (1 - b2r m)%R). assert (0 < y <= 1)%R as Hy by (unfold y; lra).
  (* what is known of ddab *)
  assert (exists ddab m' : f32, (if flt (f_of_Z 0) m then (f_of_d (dsub (d_of_Z 1) (d_of_f m)), f_of_Z 0) else (f_of_Z 1, m)) = (ddab, m') /\
    zf 0 ddab 1 /\ fin m' /\ b2r m' = 0%R /\ (b2r m = 0 -> b2r ddab = 1)%R /\
    (b2r ddab = y \/ / 2 <= y)%R /\ (bpow radix2 (-24) <= y)%R) as (ddab & m' & E & (Fd & Hd) & Fm' & Hz & Hd1 & Hde & Hy24).
  { assert (bpow radix2 (-24) <= y /\ (/ 2 <= b2r m -> rep32 y))%R as (Y1 & Y2).
    { destruct (Rle_lt_dec (/ 2) (b2r m)) as [C|C].
      - destruct (grid32 (b2r m) (-1)) as (j & Ej); [apply rep32_b2r|lia|change (bpow radix2 (-1)) with (/ 2)%R; exact C|]. replace (-1 - 23) with (-24) in Ej by lia.
        assert (y = IZR (16777216 - j) * bpow radix2 (-24))%R as Ey.
        { unfold y. rewrite Ej, minus_IZR. change (bpow radix2 (-24)) with (/ 16777216)%R. lra. }
        assert (0 < 16777216 - j <= 16777216) as Bj.
        { change (bpow radix2 (-24)) with (/ 16777216)%R in *. split; [apply lt_IZR; simpl; rewrite Ey in Hy; lra|]. apply le_IZR. rewrite Ey in Hy. lra. }
        split; [rewrite Ey; change (bpow radix2 (-24)) with (/ 16777216)%R; assert (1 <= IZR (16777216 - j))%R by (apply IZR_le; lia); lra|].
        intros _. rewrite Ey. apply rep32_scaled; lia.
      - split; [change (bpow radix2 (-24)) with (/ 16777216)%R; unfold y; lra|intros; lra]. }
    rewrite flt_spec, V0 by auto. destruct (Rlt_bool_spec 0 (b2r m)) as [C|C].
    - eexists _, _. split; [reflexivity|].
      destruct (zd_sub 0 1 (d_of_Z 1) (d_of_f m) G1 Gm) as (Zs & Vs); [split; lia|rewrite W1, Vm; lra|].
      destruct (zf_nar 0 1 _ Zs) as (Zn & Vn); [split; lia|]. split; [exact Zn|]. split; [exact F0|]. split; [exact V0|]. split; [intros; lra|]. split; [|exact Y1].
      destruct (Rle_lt_dec (/ 2) (b2r m)) as [C2|C2]; [left|right; unfold y; lra].
      rewrite Vn, Vs, W1, Vm. fold y. specialize (Y2 C2). 
      assert (rnd64 y = y) as ->.
      { apply rnd64_id. destruct (grid32 (b2r m) (-1)) as (j & Ej); [apply rep32_b2r|lia|change (bpow radix2 (-1)) with (/ 2)%R; exact C2|]. replace (-1 - 23) with (-24) in Ej by lia.
        assert (y = IZR (16777216 - j) * bpow radix2 (-24))%R as Ey.
        { unfold y. rewrite Ej, minus_IZR. change (bpow radix2 (-24)) with (/ 16777216)%R. lra. }
        assert (0 < 16777216 - j <= 16777216) as Bj.
        { change (bpow radix2 (-24)) with (/ 16777216)%R in *. split; [apply lt_IZR; simpl; rewrite Ey in Hy; lra|]. apply le_IZR. rewrite Ey in Hy. lra. }
        rewrite Ey. apply rep64_scaled; lia. }
      apply rnd32_id. exact Y2.
    - assert (b2r m = 0)%R as Z0 by lra. exists (f_of_Z 1), m. split; [reflexivity|]. split; [split; [exact F1|rewrite V1; lra]|]. split; [exact Fm|]. split; [exact Z0|].
      split; [intros; exact V1|]. split; [left; rewrite V1; unfold y; lra|exact Y1]. }
  exists ddab, m'. split; [exact E|]. split; [split; assumption|]. split; [exact Fm'|]. split; [exact Hz|].
  destruct Ht as [-> | (Ft & Ht)].
  { assert (exists s, fdiv ddab (B754_infinity false) = B754_zero s) as (s & ->).
    { clear - Fd. Local Transparent fdiv. destruct ddab as [s|s| |s mm ee pp]; try discriminate Fd; eexists; reflexivity. }
    split; [reflexivity|]. cbn. split; [lra|]. intros; lra. }
  assert (bpow radix2 (-24) = / 16777216)%R as P24 by reflexivity.
  assert (0 < b2r t /\ (b2r ddab <= 2 * b2r t + / 1000) /\ b2r ddab / b2r t <= 1025 / 512 /\ (b2r m = 0 -> b2r ddab / b2r t <= 1))%R as (Pt & _ & Q1 & Q2).
  { assert (forall k : R, (0 < b2r t -> b2r ddab <= k * b2r t -> b2r ddab / b2r t <= k)%R) as Dv.
    { intros k Hk H. apply Rmult_le_reg_r with (b2r t); [exact Hk|]. unfold Rdiv. rewrite Rmult_assoc, Rinv_l by lra. lra. }
    destruct (Rle_lt_dec 1 (b2r t)) as [C|C].
    - split; [lra|]. split; [simpl in Hd; lra|]. split; [apply Dv; simpl in Hd; lra|]. intros _. apply Dv; simpl in Hd; lra.
    - destruct (zf_add 0 2 m t Fm Ft) as ((Fa & Ha) & Va); [split; lia|simpl; lra|].
      destruct (zd_wid 0 2 (fadd m t)) as ((Ga & _) & Wa); [split; auto|]. rewrite dle_spec, W1, Wa, Va in Hp by auto.
      destruct (Rle_bool_spec 1 (rnd32 (b2r m + b2r t))) as [K|K]; [|discriminate Hp].
      assert (1 - / 33554432 <= b2r m + b2r t)%R as S1.
      { destruct (Rle_lt_dec 1 (b2r m + b2r t)); [lra|]. assert (Rabs (rnd32 (b2r m + b2r t) - (b2r m + b2r t)) <= bpow radix2 (0 - 25))%R as Er.
        { apply rnd32_err; [|lia]. simpl. apply Rabs_le. lra. }
        change (bpow radix2 (0 - 25)) with (/ 33554432)%R in Er. apply Rabs_le_inv in Er. lra. }
      rewrite P24 in Hy24. assert (y / 2 <= b2r t)%R by (unfold y in *; lra). assert (0 < b2r t)%R by lra. 
      assert (b2r ddab <= 1025 / 512 * b2r t)%R as D3. { destruct Hde as [->|]; [lra|]. simpl in Hd. unfold y in *. lra. }
      split; [assumption|]. split; [|split; [apply Dv; lra|]].
      + destruct Hde as [->|]; [lra|]. simpl in Hd. unfold y in *. lra.
      + intros Z0. specialize (Hd1 Z0). exfalso. rewrite Z0, Rplus_0_l in K. 
        rewrite rnd32_id in K by apply rep32_b2r. lra. }
  assert (0 <= b2r ddab / b2r t)%R as Q0 by (apply Rmult_le_pos; [simpl in Hd; lra|apply Rlt_le, Rinv_0_lt_compat; lra]).
  destruct (zf_div 0 3 ddab t Fd Ft) as ((Fq & Hq) & Vq); [lra|split; lia|simpl; lra|].
  split; [exact Fq|]. split. { split; [simpl in Hq; apply Hq|]. rewrite Vq. apply rnd32_le_r; [|exact Q1]. replace (1025 / 512)%R with (IZR 1025 * bpow radix2 (-9))%R by (change (bpow radix2 (-9)) with (/ 512)%R; lra). apply rep32_scaled; lia. } intros Z0. rewrite Vq. apply rnd32_le_r; [apply (rep32_IZR 1); lia|]. apply Q2. exact Z0.
Qed.
Lemma frac_ok : forall moved todo : f32, fin moved -> (0 <= b2r moved < 1)%R -> upto todo ->
  dle (d_of_Z 1) (d_of_f (fadd moved todo)) = true ->
  exists ddab m' : f32, (if flt (f_of_Z 0) moved then (f_of_d (dsub (d_of_Z 1) (d_of_f moved)), f_of_Z 0) else (f_of_Z 1, moved)) = (ddab, m') /\
    zf 0 ddab 1 /\ fin m' /\ b2r m' = 0%R /\
    fin (fdiv ddab todo) /\ (0 <= b2r (fdiv ddab todo) <= 1025 / 512)%R /\ (b2r moved = 0%R -> (b2r (fdiv ddab todo) <= 1)%R).
Proof.
  intros m t Fm Hm Ht Hp. destruct (frac_two m t Fm Hm Ht Hp) as (dd & m' & A & B & C & D & F & G & H). exists dd, m'.
  split; [exact A|]. split; [exact B|]. split; [exact C|]. split; [exact D|]. split; [exact F|]. split; [lra|exact H].
Qed.
Local Opaque fdiv.

(** *** Filters *)
Lemma thousandth : fin (dlit 1 1000) /\ (/ 1024 <= b2r (dlit 1 1000) <= / 512)%R.
Proof. exact PaintProofs.eps_val. Qed.

Lemma one_minus : forall e : f32, fin e -> (0 <= b2r e <= 1)%R ->
  fin (f_of_d (dsub (d_of_Z 1) (d_of_f e))) /\ (0 <= b2r (f_of_d (dsub (d_of_Z 1) (d_of_f e))) <= 1)%R.
Proof.
  intros e Fe He. destruct (zd_Z 1) as ((G1 & _) & W1); [lia|]. destruct (zd_wid 0 1 e) as ((Ge & _) & We); [split; auto|].
  destruct (zd_sub 0 1 (d_of_Z 1) (d_of_f e) G1 Ge) as (Zs & _); [split; lia|rewrite W1, We; simpl; lra|].
  destruct (zf_nar 0 1 _ Zs) as ((F & H) & _); [split; lia|]. split; [exact F|simpl in H; exact H].
Qed.

Lemma filter_ok : forall L (T t : f32), easel_maths L -> fin T -> fin t -> (0 <= b2r t <= 1)%R ->
  fin (filter_fac (M := mix64) L T t : f32) /\ (0 <= b2r (filter_fac (M := mix64) L T t : f32) <= 1)%R.
Proof.
  intros L T t EM FT Ft Ht. unfold filter_fac, exp_decay.
  change (@nar mix64) with f_of_d. change (@wid mix64) with d_of_f. change (@nsub (dbl mix64)) with dsub. change (@nofZ (dbl mix64) 1) with (d_of_Z 1).
  change (@nle (dbl mix64)) with dle. change (@dec mix64 1 1000) with (dlit 1 1000). change (@nofZ (sng mix64) 0) with (f_of_Z 0). change (@ndiv (sng mix64)) with fdiv.
  rewrite (cl_neg L (em_c L EM)). destruct thousandth as (Fk & Hk). destruct (d_of_f_exact T FT) as (VT & GT). rewrite dle_spec, VT by auto.
  destruct (Rle_bool_spec (b2r T) (b2r (dlit 1 1000))) as [C|C]; apply one_minus.
  - apply (zf_Z 0). lia.
  - destruct (zf_Z 0) as (_ & V0); [lia|]. rewrite V0. lra.
  - destruct (fopp_spec t) as (Vo & Fo). specialize (Fo Ft). destruct (zf_div (-1024) 0 (fopp t) T Fo FT) as ((Fq & Hq) & _); [lra|split; lia| |].
    + rewrite Vo. assert (0 < / b2r T <= 1024)%R.
      { split; [apply Rinv_0_lt_compat; lra|]. replace 1024%R with (/ / 1024)%R by lra. apply Rinv_le; lra. }
      unfold Rdiv. simpl. nra.
    + apply (em_exp L EM _ 0 Fq); [simpl; simpl in Hq; lra|lia].
  - destruct (fopp_spec t) as (Vo & Fo). specialize (Fo Ft). destruct (zf_div (-1024) 0 (fopp t) T Fo FT) as ((Fq & Hq) & _); [lra|split; lia| |].
    + rewrite Vo. assert (0 < / b2r T <= 1024)%R.
      { split; [apply Rinv_0_lt_compat; lra|]. replace 1024%R with (/ / 1024)%R by lra. apply Rinv_le; lra. }
      unfold Rdiv. simpl. nra.
    + destruct (em_exp L EM _ 0 Fq) as (_ & H); [simpl; simpl in Hq; lra|lia|]. simpl in H. exact H.
Qed.

(** *** Random numbers *)
Definition fair (E : env mix64) : Prop :=
  forall g : e_rng E, exists (r : f64) g', e_next E g = Ok (r, g') /\ zd 0 r 1.
Lemma gauss_ok : forall (E : env mix64), fair E -> forall g : e_rng E, exists (r : f32) g', rand_gauss (E := E) g = Ok (r, g') /\ zf (-5) r 5.
Proof.
  intros E HF g. unfold rand_gauss. destruct (HF g) as (r1 & g1 & -> & (F1 & H1)). cbn [obind]. destruct (HF g1) as (r2 & g2 & -> & (F2 & H2)). cbn [obind].
  destruct (HF g2) as (r3 & g3 & -> & (F3 & H3)). cbn [obind]. destruct (HF g3) as (r4 & g4 & -> & (F4 & H4)). cbn [obind]. eexists _, _. split; [reflexivity|].
  change (@nar mix64) with f_of_d. change (@nsub (dbl mix64)) with dsub. change (@nmul (dbl mix64)) with dmul. change (@nadd (dbl mix64)) with dadd.
  change (@nofZ (dbl mix64) 0) with (d_of_Z 0). change (@dec mix64) with dlit. simpl in H1, H2, H3, H4.
  destruct (zd_Z 0) as ((G0 & _) & W0); [lia|].
  destruct (zd_add 0 1 (d_of_Z 0) r1 G0 F1) as ((Fa & Ha) & _); [split; lia|rewrite W0; simpl; lra|]. simpl in Ha.
  destruct (zd_add 0 2 _ r2 Fa F2) as ((Fb & Hb) & _); [split; lia|simpl; lra|]. simpl in Hb.
  destruct (zd_add 0 3 _ r3 Fb F3) as ((Fc & Hc) & _); [split; lia|simpl; lra|]. simpl in Hc.
  destruct (zd_add 0 4 _ r4 Fc F4) as ((Fd & Hd) & _); [split; lia|simpl; lra|]. simpl in Hd.
  assert (zd 1 (dlit 173205080757 100000000000) 2) as (Fk & Hk) by dcst. assert (zd 3 (dlit 346410161514 100000000000) 4) as (Fl & Hl) by dcst. simpl in Hk, Hl.
  destruct (zd_mul 0 8 _ _ Fd Fk) as ((Fm & Hm) & _); [split; lia|simpl; nra|]. simpl in Hm.
  destruct (zd_sub (-5) 5 _ _ Fm Fl) as (Zs & _); [split; lia|simpl; lra|].
  apply zf_nar; [exact Zs|split; lia].
Qed.

(** *** Colour *)
Lemma clamp01_fin : forall v : f32, fin v -> fin (clamp01 mix64 v : f32) /\ (0 <= b2r (clamp01 mix64 v : f32) <= 1)%R.
Proof. intros v F. destruct (clamp01_limited v) as [N|H]; [|exact H]. exfalso. revert N. unfold clamp01. change (@nlt (sng mix64)) with flt. repeat match goal with |- context [if ?c then _ else _] => destruct c end; intros N; [discriminate N|discriminate N|destruct v; discriminate]. Qed.

Lemma scaled_unit : forall v q : f64, zd 0 v 1 -> zd 0 q 1 -> zf 0 (f_of_d (dmul v q)) 1.
Proof.
  intros v q (Fv & Hv) (Fq & Hq). simpl in Hv, Hq. destruct (zd_mul 0 1 v q Fv Fq) as (Zm & _); [split; lia|simpl; nra|]. apply zf_nar; [exact Zm|split; lia].
Qed.
Lemma compl_unit : forall q : f64, zd 0 q 1 -> zd 0 (dsub (d_of_Z 1) q) 1.
Proof. intros q (F & H). destruct (zd_Z 1) as ((G1 & _) & W1); [lia|]. apply zd_sub; [exact G1|exact F|split; lia|rewrite W1; simpl in *; lra]. Qed.
Lemma prod_unit : forall p q : f64, zd 0 p 1 -> zd 0 q 1 -> zd 0 (dmul p q) 1.
Proof. intros p q (F & H) (G & K). simpl in H, K. apply zd_mul; auto; [split; lia|simpl; nra]. Qed.

Lemma hsv_unit : forall h sa v : f32, fin h -> (Rabs (b2r h) <= 1000000)%R -> fin sa -> fin v ->
  exists r g b : f32, hsv_to_rgb mix64 (h, sa, v) = Ok (r, g, b) /\ zf 0 r 1 /\ zf 0 g 1 /\ zf 0 b 1.
Proof.
  intros h sa v F A Fs Fv. unfold hsv_to_rgb. destruct (clamp01_fin sa Fs) as (Gs & Hs). destruct (clamp01_fin v Fv) as (Gv & Hv).
  set (sa' := clamp01 mix64 sa) in *. set (v' := clamp01 mix64 v) in *. clearbody sa' v'. change (car (sng mix64)) with f32 in sa', v'.
  assert (zf 0 v' 1) as Zv by (split; auto). assert (zf 0 sa' 1) as Zs by (split; auto).
  match goal with |- context [if ?c then Ok _ else _] => destruct c end; [eauto 8|].
  set (w := d_of_f (f_of_d (dsub (d_of_f h) (dfloor (d_of_f h))))).
  assert (exists z (f : f64), d_to_int (dmul (if deq w (d_of_Z 1) then d_of_Z 0 else w) (d_of_Z 6)) = Ok z /\
    dsub (dmul (if deq w (d_of_Z 1) then d_of_Z 0 else w) (d_of_Z 6)) (d_of_Z z) = f /\ zd 0 f 1) as (z & f & Ez & Ef & Zf).
  { unfold w. clear w.
    destruct (d_of_f_exact h F) as [Vh Fh].
    assert (exists g : f64, dfloor (d_of_f h) = g /\ fin g /\ b2r g = IZR (Zfloor (b2r h))) as (g & -> & Fg & Vg).
    { pose proof (dfloor_spec _ Fh) as D. rewrite Vh in D.
      assert (Z.abs (Zfloor (b2r h)) <= 1000001) as Bz.
      { apply Rabs_le_inv in A. assert (-1000000 <= Zfloor (b2r h)) by (apply Zfloor_lub; lra).
        assert (Zfloor (b2r h) < 1000001) by (apply lt_IZR; pose proof (Zfloor_lb (b2r h)); lra). lia. }
      destruct (d_of_Z_exact (Zfloor (b2r h))) as [V1 F1]; [lia|].
      unfold dfloor. destruct (d_of_f h) as [sx|sx| |sx m e Hb] eqn:Eh; try discriminate Fh.
      - eexists. split; [reflexivity|]. split; [reflexivity|]. rewrite <- Vh. cbn. rewrite Zfloor_IZR. reflexivity.
      - rewrite D. eexists. split; [reflexivity|]. split; auto. }
    assert (0 <= b2r (d_of_f h) - b2r g <= 1)%R as Bd.
    { rewrite Vh, Vg. pose proof (Zfloor_lb (b2r h)). pose proof (Zfloor_ub (b2r h)). lra. }
    destruct (zd_sub 0 1 (d_of_f h) g Fh Fg) as (Zs1 & _); [split; lia|simpl; lra|].
    destruct (zf_nar 0 1 _ Zs1) as (Zn & _); [split; lia|]. destruct (zd_wid 0 1 _ Zn) as (Zw & _).
    set (w := d_of_f (f_of_d (dsub (d_of_f h) g))) in *. clearbody w.
    destruct (zd_Z 0) as ((G0 & _) & W0); [lia|]. destruct (zd_Z 6) as ((G6 & _) & W6); [lia|].
    set (u := if deq w (d_of_Z 1) then d_of_Z 0 else w). assert (zd 0 u 1) as (Fu & Hu) by (unfold u; destruct (deq w (d_of_Z 1)); [split; [exact G0|rewrite W0; simpl; lra]|exact Zw]). clearbody u. simpl in Hu.
    destruct (zd_mul 0 6 u (d_of_Z 6) Fu G6) as ((Fm & Hm) & _); [split; lia|rewrite W6; simpl; lra|]. set (p := dmul u (d_of_Z 6)) in *. clearbody p. simpl in Hm.
    assert (0 <= Zfloor (b2r p)) as Z0 by (apply Zfloor_lub; lra).
    assert (Zfloor (b2r p) <= 6) as Z6 by (apply le_IZR; pose proof (Zfloor_lb (b2r p)); lra).
    assert (d_to_int p = Ok (Zfloor (b2r p))) as Ei.
    { unfold d_to_int. rewrite <- (Ztrunc_floor (b2r p)) by lra. apply d_to_Z_ok; [exact Fm|]. rewrite Ztrunc_floor by lra. unfold INT_MIN, INT_MAX. lia. }
    exists (Zfloor (b2r p)), (dsub p (d_of_Z (Zfloor (b2r p)))). split; [exact Ei|]. split; [reflexivity|].
    destruct (zd_Z (Zfloor (b2r p))) as ((Gz & _) & Wz); [lia|]. apply zd_sub; auto; [split; lia|]. rewrite Wz.
    pose proof (Zfloor_lb (b2r p)). pose proof (Zfloor_ub (b2r p)). simpl. lra. }
  cbv zeta. cbn [mix64 to_i wid nar flo sng dbl num32 num64 nsub nmul nofZ neqb car]. fold w. rewrite Ez. cbn [obind]. rewrite Ef.
  destruct (zd_wid 0 1 v' Zv) as (Dv & _). destruct (zd_wid 0 1 sa' Zs) as (Ds & _).
  pose proof (scaled_unit _ _ Dv (compl_unit _ Ds)) as Z1.
  pose proof (scaled_unit _ _ Dv (compl_unit _ (prod_unit _ _ Ds Zf))) as Z2.
  pose proof (scaled_unit _ _ Dv (compl_unit _ (prod_unit _ _ Ds (compl_unit _ Zf)))) as Z3.
  assert (zf 0 (f_of_Z 0) 1) as Zz by (eapply zf_weak; [apply zf_Z; lia|lia|lia]).
  destruct z as [|[[p|p|]|[p|p|]|]|p]; eauto 12; destruct p; eauto 12.
Qed.

Lemma rep64_bpow : forall e, -1074 <= e -> rep64 (bpow radix2 e).
Proof. intros e H. rewrite <- (Rmult_1_l (bpow radix2 e)). apply (rep64_scaled 1); lia. Qed.

(** *** Opacity *)
Lemma pos_ok : forall k (x : f32), 0 <= k -> zf (- k) x k -> zf 0 (Brush.pos (M := mix64) x) k.
Proof.
  intros k x Hk (F & H). unfold Brush.pos. change (@nlt (dbl mix64)) with dlt. change (@wid mix64) with d_of_f. change (@nofZ (dbl mix64) 0) with (d_of_Z 0). change (@nofZ (sng mix64) 0) with (f_of_Z 0).
  destruct (d_of_f_exact x F) as (V & G). destruct (zd_Z 0) as ((G0 & _) & W0); [lia|]. rewrite dlt_spec, V, W0 by auto.
  destruct (Rlt_bool_spec (b2r x) 0) as [C|C]; [eapply zf_weak; [apply zf_Z|lia|]; lia|split; [exact F|simpl; lra]].
Qed.
Lemma pos_nonpos : forall x : f32, fin x -> (b2r x <= 0)%R -> Brush.truthy (M := mix64) (Brush.pos (M := mix64) x) = false.
Proof.
  intros x F H. unfold Brush.pos. change (@nlt (dbl mix64)) with dlt. change (@wid mix64) with d_of_f. change (@nofZ (dbl mix64) 0) with (d_of_Z 0). change (@nofZ (sng mix64) 0) with (f_of_Z 0).
  destruct (d_of_f_exact x F) as (V & G). destruct (zd_Z 0) as ((G0 & _) & W0); [lia|]. rewrite dlt_spec, V, W0 by auto.
  unfold truthy. change (@neqb (sng mix64)) with feq. change (@nofZ (sng mix64) 0) with (f_of_Z 0). destruct (zf_Z 0) as ((F0 & _) & V0); [lia|].
  destruct (Rlt_bool_spec (b2r x) 0) as [C|C]; rewrite feq_spec by auto; [rewrite V0; rewrite Req_bool_true; auto|]. rewrite V0. rewrite Req_bool_true; auto. lra.
Qed.

Section Dab.
  Context (L : mathlib mix64) {E : env mix64} (EM : easel_maths L).

  Lemma opacity_ok : forall b : brush E, zf (-1000) (val b SET_OPAQUE) 1000 -> zf (-1000) (val b SET_OPAQUE_MULTIPLY) 1000 ->
    zf 0 (base b SET_OPAQUE_LINEARIZE) 2 -> zf (-1000) (st b STATE_DABS_PER_ACTUAL_RADIUS) 1000 -> zf (-1000) (st b STATE_DABS_PER_BASIC_RADIUS) 1000 ->
    zf 0 (dab_opacity L b) 1.
  Proof.
    intros b H1 H2 H3 H4 H5. unfold dab_opacity. cbv zeta.
    set (op := val b SET_OPAQUE) in *. set (om := val b SET_OPAQUE_MULTIPLY) in *. set (lin := base b SET_OPAQUE_LINEARIZE) in *.
    set (da := st b STATE_DABS_PER_ACTUAL_RADIUS) in *. set (db := st b STATE_DABS_PER_BASIC_RADIUS) in *. clearbody op om lin da db. change (car (sng mix64)) with f32 in *.
    assert (zf 0 (clamp01 mix64 (nmul (a := sng mix64) (Brush.pos (M := mix64) op) om)) 1) as Zo.
    { destruct (pos_ok 1000 op ltac:(lia) H1) as (Fp & Hp). destruct H2 as (Fm & Hm). change (@nmul (sng mix64)) with fmul.
      destruct (zf_mul (-1000000) 1000000 (Brush.pos (M := mix64) op) om Fp Fm) as ((Fq & _) & _); [split; lia|simpl in *; nra|]. apply clamp01_fin. exact Fq. }
    set (o := clamp01 mix64 _) in *. clearbody o. change (car (sng mix64)) with f32 in o.
    destruct (Brush.truthy (M := mix64) lin); [|exact Zo].
    change (@nar mix64) with f_of_d. change (@wid mix64) with d_of_f. change (@nsub (dbl mix64)) with dsub. change (@nadd (dbl mix64)) with dadd. change (@nmul (dbl mix64)) with dmul. change (@ndiv (dbl mix64)) with ddiv.
    change (@nadd (sng mix64)) with fadd. change (@nlt (dbl mix64)) with dlt. change (@nofZ (dbl mix64)) with d_of_Z. change (@nofZ (sng mix64)) with f_of_Z.
    destruct (zd_Z 1) as ((G1 & _) & W1); [lia|]. destruct (zd_Z 2) as ((G2 & _) & W2); [lia|].
    destruct H4 as (Fa & Ha). destruct H5 as (Fb & Hb). simpl in Ha, Hb.
    destruct (zf_add (-2000) 2000 da db Fa Fb) as (Zs & _); [split; lia|simpl; lra|]. destruct (zd_wid _ _ _ Zs) as ((Fs & Hs) & _). simpl in Hs.
    destruct (zd_mul (-4000) 4000 _ (d_of_Z 2) Fs G2) as (Zm & _); [split; lia|rewrite W2; simpl; lra|]. destruct (zf_nar _ _ _ Zm) as ((Fd & Hd) & _); [split; lia|].
    set (dpp := f_of_d (dmul (d_of_f (fadd da db)) (d_of_Z 2))) in *. clearbody dpp. simpl in Hd.
    assert (zf 1 (if dlt (d_of_f dpp) (d_of_Z 1) then f_of_Z 1 else dpp) 4000) as Zd1.
    { destruct (d_of_f_exact dpp Fd) as (V & G). rewrite dlt_spec, V, W1 by auto.
      destruct (Rlt_bool_spec (b2r dpp) 1) as [C|C]; [eapply zf_weak; [apply zf_Z|lia|]; lia|split; [exact Fd|simpl; lra]]. }
    set (d1 := if dlt (d_of_f dpp) (d_of_Z 1) then f_of_Z 1 else dpp) in *. clearbody d1. destruct (zd_wid _ _ _ Zd1) as ((Fw & Hw) & _). simpl in Hw.
    destruct (zd_wid _ _ _ H3) as ((Fl & Hl) & _). simpl in Hl.
    destruct (zd_sub 0 3999 (d_of_f d1) (d_of_Z 1) Fw G1) as ((Fx & Hx) & _); [split; lia|rewrite W1; simpl; lra|]. simpl in Hx.
    destruct (zd_mul 0 7998 (d_of_f lin) _ Fl Fx) as ((Fy & Hy) & _); [split; lia|simpl; nra|]. simpl in Hy.
    destruct (zd_add 1 7999 (d_of_Z 1) _ G1 Fy) as (Zz & _); [split; lia|rewrite W1; simpl; lra|].
    destruct (zf_nar _ _ _ Zz) as (Zn & _); [split; lia|]. destruct (zd_wid _ _ _ Zn) as ((Fe & He) & _). simpl in He.
    set (d2 := f_of_d _) in He, Fe, Zn |- *. clearbody d2.
    assert (bpow radix2 (-13) <= 1 / b2r (d_of_f d2) <= 1)%R as Hq.
    { change (bpow radix2 (-13)) with (/ 8192)%R. unfold Rdiv. rewrite Rmult_1_l. split; [apply Rinv_le; lra|]. rewrite <- Rinv_1. apply Rinv_le; lra. }
    assert (0 < bpow radix2 (-13))%R as P13 by apply bpow_gt_0.
    destruct (zd_div 0 1 (d_of_Z 1) (d_of_f d2) G1 Fe) as (Zdv & Vdv); [lra|split; lia|rewrite W1; simpl; lra|].
    destruct (zf_nar _ _ _ Zdv) as ((Fk & Hk) & Vk); [split; lia|].
    assert (0 < b2r (f_of_d (ddiv (d_of_Z 1) (d_of_f d2))))%R as Pk.
    { apply Rlt_le_trans with (bpow radix2 (-13)); [exact P13|]. rewrite Vk. apply rnd32_ge_r; [apply rep32_bpow; lia|]. rewrite Vdv. apply rnd64_ge_r; [apply rep64_bpow; lia|]. rewrite W1. lra. }
    destruct (one_minus o (proj1 Zo) ltac:(destruct Zo as (_ & Q); simpl in Q; exact Q)) as (Fb1 & Hb1).
    destruct (em_pow L EM _ _ Fb1 Fk Hb1 Pk) as (Fp & Hp). change (car (sng mix64)) with f32 in *.
    apply one_minus; assumption.
  Qed.

  (** *** The radius *)
  Lemma num_1000 : is_nan (@nofZ (sng mix64) 1000) = false. Proof. vm_compute. reflexivity. Qed.
  Lemma num_02 : is_nan (@nar mix64 (ACTUAL_RADIUS_MIN (M := mix64))) = false. Proof. vm_compute. reflexivity. Qed.
  Lemma num_1000d : is_nan (f_of_d (d_of_Z 1000)) = false. Proof. vm_compute. reflexivity. Qed.
  Lemma num_02d : is_nan (f_of_d (dlit 2 10)) = false. Proof. vm_compute. reflexivity. Qed.
  Lemma clamped_num : forall r : f32, is_nan r = false -> fin (clamped_radius (M := mix64) r : f32) /\ (2 / 10 <= b2r (clamped_radius (M := mix64) r : f32) <= 1000)%R.
  Proof.
    intros r N. destruct (clamped_limited r) as [H|H]; [|exact H]. exfalso. revert H. unfold clamped_radius. cbv zeta.
    match goal with |- context [@nlt (dbl mix64) ?a ?b] => destruct (@nlt (dbl mix64) a b) end; match goal with |- context [@nlt (sng mix64) ?a ?b] => destruct (@nlt (sng mix64) a b) end;
      intros H; [rewrite num_1000 in H|rewrite num_02 in H|rewrite num_1000 in H|rewrite N in H]; discriminate H.
  Qed.
  Lemma clamp_num : forall r : f32, is_nan r = false -> fin (clamp_radius (M := mix64) r : f32) /\ (2 / 10 <= b2r (clamp_radius (M := mix64) r : f32) <= 1000)%R.
  Proof.
    intros r N. destruct (clamp_limited r) as [H|H]; [|exact H]. exfalso. revert H. unfold clamp_radius. change (@nlt (dbl mix64)) with dlt. change (@nlt (sng mix64)) with flt. change (@wid mix64) with d_of_f. change (@nar mix64) with f_of_d.
    change (ACTUAL_RADIUS_MIN (M := mix64)) with (dlit 2 10). change (@nofZ (sng mix64) 1000) with (f_of_Z 1000). change (@nofZ (dbl mix64) 1000) with (d_of_Z 1000).
    destruct (flt (f_of_Z 1000) r) eqn:C1; [intros H; rewrite num_1000d in H; discriminate H|]. destruct (dlt (d_of_f r) (dlit 2 10)) eqn:C2; [intros H; rewrite num_02d in H; discriminate H|].
    destruct (is_finite r) eqn:F.
    - destruct r02_val as (F1 & F2 & V1 & V2). destruct thousand as (VT & FT).
      destruct (d_of_f_exact r F) as (Vd & Fd). rewrite flt_spec, VT in C1 by auto. rewrite dlt_spec, Vd in C2 by auto.
      destruct (Rlt_bool_spec 1000 (b2r r)) as [|C1']; [discriminate C1|]. destruct (Rlt_bool_spec (b2r r) (b2r (dlit 2 10))) as [|C2']; [discriminate C2|].
      destruct (f_of_d_spec (d_of_f r) Fd) as (Vf & Ff). { rewrite Vd. pose proof P_Limits.big127. rewrite Rabs_pos_eq; lra. }
      intros H. unfold fin in Ff. destruct (f_of_d (d_of_f r)); discriminate.
    - destruct r as [s| [|] | |s m e p]; try discriminate F; try discriminate N.
      + change (dlt (d_of_f (B754_infinity true)) (dlit 2 10)) with true in C2. discriminate C2.
      + change (flt (f_of_Z 1000) (B754_infinity false)) with true in C1. discriminate C1.
  Qed.

  Lemma size_ok : forall (b : brush E) o, fair E -> zf 0 o 1 ->
    fin (st b STATE_ACTUAL_RADIUS : f32) -> (2 / 10 <= b2r (st b STATE_ACTUAL_RADIUS : f32) <= 1000)%R ->
    zf (-1000) (val b SET_RADIUS_LOGARITHMIC) 1000 -> zf (-100) (val b SET_RADIUS_BY_RANDOM) 100 ->
    exists (r o' : f32) g, dab_size L b o = Ok (r, o', with_rng b g) /\ fin r /\ (2 / 10 <= b2r r <= 1000)%R /\ zf 0 o' 1.
  Proof.
    intros b o HF Zo Fr Hr Hl Hn. unfold dab_size. cbv zeta. destruct (truthy _).
    2:{ exists (st b STATE_ACTUAL_RADIUS), o, (b_rng b). split; [destruct b; reflexivity|]. auto. }
    destruct (gauss_ok E HF (b_rng b)) as (r & g & -> & (Fg & Hg)). cbn [obind].
    change (@nmul (sng mix64)) with fmul. change (@nadd (sng mix64)) with fadd. change (@ndiv (sng mix64)) with fdiv. unfold sqr. change (@nmul (sng mix64)) with fmul. change (@nle (dbl mix64)) with dle. change (@wid mix64) with d_of_f. change (@nofZ (dbl mix64) 1) with (d_of_Z 1).
    set (rl := val b SET_RADIUS_LOGARITHMIC) in *. set (rr := val b SET_RADIUS_BY_RANDOM) in *. set (ar := st b STATE_ACTUAL_RADIUS) in *. clearbody rl rr ar. change (car (sng mix64)) with f32 in *.
    destruct Hn as (Fn & Hn). destruct Hl as (Fl & Hl). simpl in Hn, Hl, Hg.
    destruct (zf_mul (-500) 500 r rr Fg Fn) as ((Fm & Hm) & _); [split; lia|simpl; nra|]. simpl in Hm.
    destruct (zf_add (-1500) 1500 rl _ Fl Fm) as ((Fa & _) & _); [split; lia|simpl; lra|].
    destruct (clamp_num _ (em_exp_num L EM _ Fa)) as (Fc & Hc). set (rd := clamp_radius _) in *. clearbody rd. change (car (sng mix64)) with f32 in rd.
    eexists _, _, _. split; [reflexivity|]. split; [exact Fc|]. split; [exact Hc|].
    assert (0 <= b2r ar / b2r rd <= 5000)%R as Hq.
    { split; [apply Rmult_le_pos; [lra|apply Rlt_le, Rinv_0_lt_compat; lra]|]. apply Rmult_le_reg_r with (b2r rd); [lra|]. unfold Rdiv. rewrite Rmult_assoc, Rinv_l by lra. lra. }
    destruct (zf_div 0 5000 ar rd Fr Fc) as ((Fq & Hq') & _); [lra|split; lia|simpl; lra|]. set (q := fdiv ar rd) in *. clearbody q. simpl in Hq'.
    destruct (fmul_spec q q Fq Fq) as (Vs & Fs). { rewrite Rabs_pos_eq by nra. apply Rle_trans with (bpow radix2 25); [change (bpow radix2 25) with 33554432%R; nra|apply bpow_le; lia]. }
    destruct (d_of_f_exact _ Fs) as (Wd & Gd). destruct (zd_Z 1) as ((G1 & _) & W1); [lia|]. rewrite dle_spec, Wd, W1 by auto.
    destruct (Rle_bool_spec (b2r (fmul q q)) 1) as [C|C]; [|exact Zo].
    assert (0 <= b2r (fmul q q))%R by (rewrite Vs; apply rnd32_ge_r; [apply (rep32_IZR 0); lia|nra]). destruct Zo as (Fo & Ho). simpl in Ho.
    apply zf_mul; auto; [split; lia|simpl; nra].
  Qed.
End Dab.

(** *** Rounding down, angles *)
Lemma dfloor_val : forall x : f64, fin x -> (Rabs (b2r x) <= 1000000)%R -> fin (dfloor x) /\ b2r (dfloor x) = IZR (Zfloor (b2r x)) /\ Z.abs (Zfloor (b2r x)) <= 1000001.
Proof.
  intros x F A. pose proof (dfloor_spec _ F) as D.
  assert (Z.abs (Zfloor (b2r x)) <= 1000001) as Bz.
  { apply Rabs_le_inv in A. assert (-1000000 <= Zfloor (b2r x)) by (apply Zfloor_lub; lra).
    assert (Zfloor (b2r x) < 1000001) by (apply lt_IZR; pose proof (Zfloor_lb (b2r x)); lra). lia. }
  destruct (d_of_Z_exact (Zfloor (b2r x))) as [V1 F1]; [lia|].
  unfold dfloor. destruct x as [sx|sx| |sx m e Hb] eqn:Eh; try discriminate F.
  - split; [reflexivity|]. split; [cbn; rewrite Zfloor_IZR; reflexivity|exact Bz].
  - rewrite D. auto.
Qed.
Lemma mod_arith_ok : forall (n : Z) (a : f32), 180 <= n <= 360 -> zf (-18000) a 18000 -> zf (-1) (mod_arith mix64 a (f_of_Z n)) (n + 1).
Proof.
  intros n a Hn (Fa & Ha). unfold mod_arith. change (@nar mix64) with f_of_d. change (@wid mix64) with d_of_f. change (@flo mix64) with dfloor. change (@nsub (dbl mix64)) with dsub. change (@nmul (dbl mix64)) with dmul. change (@ndiv (sng mix64)) with fdiv.
  destruct (zf_Z n) as ((Fn & _) & Vn); [lia|]. simpl in Ha. assert (180 <= IZR n <= 360)%R as Rn by (split; apply IZR_le; lia).
  assert (-100 <= b2r a / IZR n <= 100)%R as Hq.
  { split; apply Rmult_le_reg_r with (IZR n); try lra; unfold Rdiv; rewrite Rmult_assoc, Rinv_l by lra; nra. }
  destruct (zf_div (-100) 100 a (f_of_Z n) Fa Fn) as ((Fq & Hq') & Vq); [lra|split; lia|rewrite Vn; simpl; lra|]. simpl in Hq'.
  pose proof (rnd32_err (b2r a / IZR n) 7 ltac:(change (bpow radix2 7) with 128%R; apply Rabs_le; lra) ltac:(lia)) as Er. rewrite Vn in Vq. rewrite <- Vq in Er. simpl in Er.
  set (q := fdiv a (f_of_Z n)) in *. clearbody q. destruct (d_of_f_exact q Fq) as (Wq & Gq).
  destruct (dfloor_val (d_of_f q) Gq) as (Gf & Wf & Bf). { rewrite Wq. apply Rabs_le. lra. }
  rewrite Wq in Wf, Bf. set (fl := dfloor (d_of_f q)) in *. clearbody fl. pose proof (Zfloor_lb (b2r q)) as B1. pose proof (Zfloor_ub (b2r q)) as B2.
  destruct (d_of_f_exact (f_of_Z n) Fn) as (Wn & Gn). rewrite Vn in Wn. destruct (d_of_f_exact a Fa) as (Wa & Ga).
  assert (-101 <= b2r fl <= 100)%R as Hfl by (rewrite Wf; split; lra).
  destruct (zd_mul (-36360) 36360 (d_of_f (f_of_Z n)) fl Gn Gf) as ((Gm & Hm) & Vm); [split; lia|rewrite Wn; simpl; nra|].
  assert (b2r (dmul (d_of_f (f_of_Z n)) fl) = IZR n * IZR (Zfloor (b2r q)))%R as Em.
  { rewrite Vm, Wn, Wf, <- mult_IZR. apply rnd64_id. apply rep64_IZR. nia. }
  set (pm := dmul (d_of_f (f_of_Z n)) fl) in *. clearbody pm.
  assert (-1 <= b2r a - IZR n * IZR (Zfloor (b2r q)) <= IZR n + 1)%R as Hd.
  { apply Rabs_le_inv in Er. assert (b2r a = IZR n * (b2r a / IZR n))%R as -> by (field; lra). set (u := (b2r a / IZR n)%R) in *. set (z := IZR (Zfloor (b2r q))) in *.
    assert (-/500 <= u - z <= 1 + / 500)%R by lra. nra. }
  destruct (zd_sub (-1) (n + 1) (d_of_f a) pm Ga Gm) as (Zr & _); [split; lia|rewrite Wa, Em, plus_IZR; simpl; lra|].
  apply zf_nar; [exact Zr|split; lia].
Qed.

Section Dab2.
  Context (L : mathlib mix64) {E : env mix64} (EM : easel_maths L).

  Lemma degrees_ok : forall x : f32, zf (-100) x 100 -> zd (-6120) (degrees (M := mix64) L (d_of_f x) : f64) 6120.
  Proof.
    intros x Hx. unfold degrees. change (@nmul (dbl mix64)) with dmul. change (@ndiv (dbl mix64)) with ddiv. change (@nofZ (dbl mix64)) with d_of_Z. destruct (cl_pi L (em_c L EM)) as (Fp & Hp).
    set (pi := m_pi L) in *. clearbody pi. change (car (dbl mix64)) with f64 in pi.
    destruct (zd_wid _ _ _ Hx) as ((Fw & Hw) & _). simpl in Hw. destruct (zd_Z 2) as ((G2 & _) & W2); [lia|]. destruct (zd_Z 360) as ((G3 & _) & W3); [lia|].
    destruct (zd_mul 6 8 (d_of_Z 2) pi G2 Fp) as ((Fm & Hm) & _); [split; lia|rewrite W2; simpl; lra|]. set (tp := dmul _ _) in *. clearbody tp. simpl in Hm.
    destruct (zd_div (-17) 17 (d_of_f x) tp Fw Fm) as ((Fd & Hd) & _); [lra|split; lia| |].
    { split; (apply Rmult_le_reg_r with (b2r tp); [lra|]; unfold Rdiv; rewrite Rmult_assoc, Rinv_l by lra; simpl; lra). }
    simpl in Hd. set (q := ddiv _ _) in *. clearbody q.
    destruct (zd_mul (-6120) 6120 q (d_of_Z 360) Fd G3) as (Z1 & _); [split; lia|rewrite W3; simpl; lra|].
    exact Z1.
  Qed.
End Dab2.

(** *** Anti-aliasing *)
Lemma grid_at : forall (x : f32) e k, -126 <= e -> k <= e - 23 -> (bpow radix2 e <= b2r x)%R -> exists j, b2r x = (IZR j * bpow radix2 k)%R.
Proof.
  intros x e k He Hk H. destruct (grid32 (b2r x) e (rep32_b2r x) He H) as (j & ->). exists (j * 2 ^ (e - 23 - k)).
  rewrite mult_IZR, (IZR_Zpower radix2) by lia. rewrite Rmult_assoc, <- bpow_plus. do 2 f_equal. lia.
Qed.
Lemma rep64_grid : forall j, Z.abs j <= 9007199254740992 -> rep64 (IZR j * bpow radix2 (-31)).
Proof. intros. apply rep64_scaled; lia. Qed.
Lemma grid_small : forall (j : Z) (x : R), x = (IZR j * bpow radix2 (-31))%R -> (Rabs x <= 4096)%R -> Z.abs j <= 9007199254740992.
Proof.
  intros j x -> H. change (bpow radix2 (-31)) with (/ 2147483648)%R in H. apply le_IZR. rewrite abs_IZR. rewrite Rabs_mult, (Rabs_pos_eq (/ 2147483648)) in H by lra. lra.
Qed.

Definition aa_ok (m : f32) : Prop := fin m /\ ((b2r m <= 0)%R \/ (/ 64 <= b2r m <= 5)%R).
Definition hardness_ok (h : f32) : Prop := zf 0 h 1 /\ (b2r h = 0 \/ / 1000 <= b2r h)%R.
Lemma anti_alias_ok : forall r h m : f32, fin r -> (2 / 10 <= b2r r <= 1000)%R -> hardness_ok h -> aa_ok m ->
  exists r' h' : f32, anti_alias (M := mix64) r h m = (r', h') /\ zf 0 r' 1009 /\ zf (-1) h' 1 /\
    ((b2r h' <= 0)%R \/ (bpow radix2 (-126) <= b2r h')%R) /\ ((b2r h' <= 0)%R \/ (/ 1000 <= b2r h')%R \/ (b2r r' <= 21)%R).
Proof.
  intros r h m Fr Hr ((Fh & Hh) & Hh0) (Fm & Hm). simpl in Hh. unfold anti_alias. cbv zeta.
  change (@nlt (sng mix64)) with flt. change (@nar mix64) with f_of_d. change (@wid mix64) with d_of_f. change (@nmul (dbl mix64)) with dmul. change (@nsub (dbl mix64)) with dsub. change (@nadd (dbl mix64)) with dadd. change (@ndiv (dbl mix64)) with ddiv. change (@nofZ (dbl mix64)) with d_of_Z.
  destruct (d_of_f_exact r Fr) as (Wr & Gr). destruct (d_of_f_exact h Fh) as (Wh & Gh). destruct (d_of_f_exact m Fm) as (Wm & Gm).
  destruct (zd_Z 1) as ((G1 & _) & W1); [lia|]. destruct (zd_Z 2) as ((G2 & _) & W2); [lia|].
  destruct (zd_sub 0 1 (d_of_Z 1) (d_of_f h) G1 Gh) as ((Fc & Hc) & _); [split; lia|rewrite W1, Wh; simpl; lra|]. set (c := dsub (d_of_Z 1) (d_of_f h)) in *. clearbody c. simpl in Hc.
  destruct (zd_mul 0 1000 (d_of_f r) c Gr Fc) as (Zu & _); [split; lia|rewrite Wr; simpl; nra|]. destruct (zf_nar _ _ _ Zu) as ((Fu & Hu) & _); [split; lia|].
  set (cur := f_of_d (dmul (d_of_f r) c)) in *. clearbody cur. simpl in Hu.
  assert (bpow radix2 (-126) <= / 1000)%R as P126. { apply Rle_trans with (bpow radix2 (-10)); [apply bpow_le; lia|]. change (bpow radix2 (-10)) with (/1024)%R. lra. }
  rewrite flt_spec by auto. destruct (Rlt_bool_spec (b2r cur) (b2r m)) as [C|C].
  2:{ exists r, h. split; [reflexivity|]. split; [split; [exact Fr|simpl; lra]|]. split; [split; [exact Fh|simpl; lra]|]. split; destruct Hh0; [left|right|left|right; left]; lra. }
  destruct Hm as [Hm|Hm]; [lra|].
  (* the optical radius *)
  destruct (zd_mul 0 1000 c (d_of_f r) Fc Gr) as ((Fa & Ha) & Va); [split; lia|rewrite Wr; simpl; nra|].
  assert (b2r (dmul c (d_of_f r)) <= b2r r)%R as Ha2. { rewrite Va. apply rnd64_le_r; [rewrite <- Wr; apply rep64_b2r|]. rewrite Wr. nra. }
  set (a := dmul c (d_of_f r)) in *. clearbody a. simpl in Ha.
  destruct (zd_div 0 500 a (d_of_Z 2) Fa G2) as ((Fa2 & Ha3) & Va2); [rewrite W2; lra|split; lia|rewrite W2; simpl; lra|].
  assert (b2r (ddiv a (d_of_Z 2)) <= b2r r / 2)%R as Ha4.
  { rewrite Va2, W2. apply rnd64_le_r; [|lra]. destruct (grid_at r (-3) (-30) ltac:(lia) ltac:(lia)) as (j & Ej). { change (bpow radix2 (-3)) with (/ 8)%R. lra. }
    assert (b2r r / 2 = IZR j * bpow radix2 (-31))%R as K by (rewrite Ej; change (bpow radix2 (-30)) with (/ 1073741824)%R; change (bpow radix2 (-31)) with (/ 2147483648)%R; lra).
    rewrite K. apply rep64_grid. apply (grid_small j _ K). rewrite Rabs_pos_eq; lra. }
  set (a2 := ddiv a (d_of_Z 2)) in *. clearbody a2. simpl in Ha3.
  assert (rep64 (/ 16) /\ rep32 (/ 16)) as (R64 & R32) by (change (/ 16)%R with (bpow radix2 (-4)); split; [apply rep64_bpow|apply rep32_bpow]; lia).
  destruct (zd_sub 0 1000 (d_of_f r) a2 Gr Fa2) as (Zo & Vo); [split; lia|rewrite Wr; simpl; lra|].
  assert (/ 16 <= b2r (dsub (d_of_f r) a2))%R as Ho1. { rewrite Vo. apply rnd64_ge_r; [exact R64|]. rewrite Wr. lra. }
  destruct (zf_nar _ _ _ Zo) as ((Fo & Ho) & Vo'); [split; lia|].
  assert (/ 16 <= b2r (f_of_d (dsub (d_of_f r) a2)))%R as Ho2. { rewrite Vo'. apply rnd32_ge_r; [exact R32|exact Ho1]. }
  set (o := f_of_d (dsub (d_of_f r) a2)) in *. clearbody o. simpl in Ho. clear Ho1 Vo' Vo Zo.
  destruct (d_of_f_exact o Fo) as (Wo & Go).
  (* the exact numerator and denominator *)
  destruct (grid_at o (-4) (-31) ltac:(lia) ltac:(lia)) as (i & Ei). { change (bpow radix2 (-4)) with (/ 16)%R. lra. }
  destruct (grid_at m (-7) (-30) ltac:(lia) ltac:(lia)) as (j & Ej). { change (bpow radix2 (-7)) with (/ 128)%R. lra. }
  assert (b2r m / 2 = IZR j * bpow radix2 (-31))%R as Ej2 by (rewrite Ej; change (bpow radix2 (-30)) with (/ 1073741824)%R; change (bpow radix2 (-31)) with (/ 2147483648)%R; lra).
  destruct (zd_div 0 3 (d_of_f m) (d_of_Z 2) Gm G2) as ((Fm2 & Hm2) & Vm2); [rewrite W2; lra|split; lia|rewrite W2, Wm; simpl; lra|].
  assert (b2r (ddiv (d_of_f m) (d_of_Z 2)) = b2r m / 2)%R as Em2.
  { rewrite Vm2, W2, Wm. apply rnd64_id. rewrite Ej2. apply rep64_grid. apply (grid_small j _ Ej2). rewrite Rabs_pos_eq; lra. }
  set (m2 := ddiv (d_of_f m) (d_of_Z 2)) in *. clearbody m2.
  destruct (zd_sub (-3) 1000 (d_of_f o) m2 Go Fm2) as ((Fn & Hn) & Vn); [split; lia|rewrite Wo, Em2; simpl; lra|].
  assert (b2r (dsub (d_of_f o) m2) = b2r o - b2r m / 2)%R as En.
  { rewrite Vn, Wo, Em2. apply rnd64_id. assert (b2r o - b2r m / 2 = IZR (i - j) * bpow radix2 (-31))%R as K by (rewrite Ej2, Ei at 1; rewrite minus_IZR; ring).
    rewrite K. apply rep64_grid. apply (grid_small _ _ K). apply Rabs_le. lra. }
  destruct (zd_add 0 1003 (d_of_f o) m2 Go Fm2) as ((Fs & Hs) & Vs); [split; lia|rewrite Wo, Em2; simpl; lra|].
  assert (b2r (dadd (d_of_f o) m2) = b2r o + b2r m / 2)%R as Es.
  { rewrite Vs, Wo, Em2. apply rnd64_id. assert (b2r o + b2r m / 2 = IZR (i + j) * bpow radix2 (-31))%R as K by (rewrite Ej2, Ei at 1; rewrite plus_IZR; ring).
    rewrite K. apply rep64_grid. apply (grid_small _ _ K). apply Rabs_le. lra. }
  assert (b2r o - b2r m / 2 = IZR (i - j) * bpow radix2 (-31))%R as Kn by (rewrite Ej2, Ei at 1; rewrite minus_IZR; ring).
  set (n := dsub (d_of_f o) m2) in *. set (sm := dadd (d_of_f o) m2) in *. clearbody n sm. clear Vn Vs Hn Hs.
  assert (/ 16 < b2r sm <= 1002.5)%R as Hs by (rewrite Es; lra).
  assert (b2r n = b2r sm - b2r m)%R as Ens by (rewrite En, Es; lra).
  assert (b2r n / b2r sm = 1 - b2r m / b2r sm)%R as Eq by (rewrite Ens; field; lra).
  assert (b2r m / 1002.5 <= b2r m / b2r sm)%R as Hx1. { unfold Rdiv. apply Rmult_le_compat_l; [lra|]. apply Rinv_le; lra. }
  assert (b2r m / b2r sm < 2)%R as Hx2. { apply Rmult_lt_reg_r with (b2r sm); [lra|]. unfold Rdiv. rewrite Rmult_assoc, Rinv_l by lra. rewrite Es. lra. }
  destruct (zd_div (-1) 1 n sm Fn Fs) as (Zq & Vq); [lra|split; lia|rewrite Eq; simpl; lra|].
  pose proof (rnd64_err (b2r n / b2r sm) 0 ltac:(simpl; apply Rabs_le; lra) ltac:(lia)) as E1. rewrite <- Vq in E1.
  destruct (zf_nar _ _ _ Zq) as ((Fhn & Hhn) & Vhn); [split; lia|].
  pose proof (rnd32_err (b2r (ddiv n sm)) 0 ltac:(destruct Zq as (_ & Q); simpl in Q |- *; apply Rabs_le; lra) ltac:(lia)) as E2. rewrite <- Vhn in E2.
  assert (b2r (f_of_d (ddiv n sm)) <= 0 \/ bpow radix2 (-126) <= b2r (f_of_d (ddiv n sm)))%R as Hsign.
  { destruct (Z.le_gt_cases (i - j) 0) as [Cz|Cz].
    - left. rewrite Vhn. apply rnd32_le_r; [apply (rep32_IZR 0); lia|]. rewrite Vq. apply rnd64_le_r; [apply (rep64_IZR 0); lia|].
      assert (b2r n <= 0)%R. { rewrite En, Kn. assert (IZR (i - j) <= 0)%R by (apply (IZR_le _ 0); lia). pose proof (bpow_gt_0 radix2 (-31)). nra. }
      unfold Rdiv. assert (0 < / b2r sm)%R by (apply Rinv_0_lt_compat; lra). nra.
    - right. apply Rle_trans with (bpow radix2 (-41)); [apply bpow_le; lia|]. rewrite Vhn. apply rnd32_ge_r; [apply rep32_bpow; lia|]. rewrite Vq. apply rnd64_ge_r; [apply rep64_bpow; lia|].
      assert (bpow radix2 (-31) <= b2r n)%R. { rewrite En, Kn. assert (1 <= IZR (i - j))%R by (apply (IZR_le 1); lia). pose proof (bpow_gt_0 radix2 (-31)). nra. }
      change (bpow radix2 (-31)) with (/ 2147483648)%R in *. replace (bpow radix2 (-41)) with (/ 2147483648 * / 1024)%R by (change (bpow radix2 (-41)) with (/ 2199023255552)%R; lra). unfold Rdiv.
      apply Rmult_le_compat; try lra. apply Rinv_le; lra. }
  set (hn := f_of_d (ddiv n sm)) in *. clearbody hn. simpl in Hhn, E1, E2.
  assert (Rabs (b2r hn - (1 - b2r m / b2r sm)) <= / 30000000)%R as Ehn.
  { rewrite <- Eq. apply Rabs_le. apply Rabs_le_inv in E1. apply Rabs_le_inv in E2. lra. }
  apply Rabs_le_inv in Ehn. destruct (d_of_f_exact hn Fhn) as (Whn & Ghn).
  destruct (zd_sub 0 2 (d_of_Z 1) (d_of_f hn) G1 Ghn) as ((FD & HD) & VD); [split; lia|rewrite W1, Whn; simpl; lra|].
  pose proof (rnd64_err (b2r (d_of_Z 1) - b2r (d_of_f hn)) 1 ltac:(rewrite W1, Whn; simpl; apply Rabs_le; lra) ltac:(lia)) as E3. rewrite <- VD, W1, Whn in E3. apply Rabs_le_inv in E3. simpl in E3.
  set (dd := dsub (d_of_Z 1) (d_of_f hn)) in *. clearbody dd. simpl in HD.
  assert (b2r m / b2r sm - / 20000000 <= b2r dd)%R as HD1 by lra.
  assert (b2r m <= 1009 * b2r dd)%R as HD2 by lra. assert (0 < b2r dd)%R as HD3 by lra.
  destruct (zd_div 0 1009 (d_of_f m) dd Gm FD) as (Zr & Vr'); [lra|split; lia| |].
  { rewrite Wm. split; [apply Rlt_le, Rmult_lt_0_compat; [lra|apply Rinv_0_lt_compat; lra]|]. apply Rmult_le_reg_r with (b2r dd); [lra|]. unfold Rdiv. rewrite Rmult_assoc, Rinv_l by lra. simpl. lra. }
  destruct (zf_nar _ _ _ Zr) as (Zr' & Vr2); [split; lia|].
  eexists _, _. split; [reflexivity|]. split; [exact Zr'|]. split; [split; [exact Fhn|simpl; lra]|]. split; [exact Hsign|].
  destruct (Rle_or_lt (/ 1000) (b2r hn)) as [C1|C1]; [right; left; exact C1|]. right. right.
  rewrite Vr2. apply rnd32_le_r; [apply (rep32_IZR 21); lia|]. rewrite Vr'. apply rnd64_le_r; [apply (rep64_IZR 21); lia|]. rewrite Wm.
  apply Rmult_le_reg_r with (b2r dd); [lra|]. unfold Rdiv. rewrite Rmult_assoc, Rinv_l by lra. lra.
Qed.

(** *** Snapping to pixels *)
Lemma flit_half : fin (f_of_d (dlit 1 2)) /\ b2r (f_of_d (dlit 1 2)) = (/ 2)%R.
Proof.
  destruct BlendColorProofs.half_val as (V & F). destruct (f_of_d_spec _ F) as (Vf & Ff). { rewrite V. pose proof P_Abort.big127. rewrite Rabs_pos_eq; lra. }
  split; [exact Ff|]. rewrite Vf, V. apply rnd32_id. change (/ 2)%R with (bpow radix2 (-1)). apply rep32_bpow. lia.
Qed.
Lemma snapped_ok : forall k (x : f32), 0 <= k <= 900000 -> zf (- k) x k -> let sn := f_of_d (dadd (dfloor (d_of_f x)) (dlit 1 2)) in
  forall s : f32, zf 0 s 1 -> zf (- (k + 1)) (fadd x (fmul (fsub sn x) s)) (k + 1).
Proof.
  intros k x Hk (F & H) sn s (Fs & Hs). destruct (d_of_f_exact x F) as (V & G). simpl in Hs. rewrite opp_IZR in H.
  assert (0 <= IZR k <= 900000)%R as Rk by (split; apply IZR_le; lia).
  destruct (dfloor_val (d_of_f x) G) as (Gf & Wf & Bf). { rewrite V. apply Rabs_le. lra. }
  rewrite V in Wf, Bf. pose proof (Zfloor_lb (b2r x)) as B1. pose proof (Zfloor_ub (b2r x)) as B2. destruct BlendColorProofs.half_val as (Vh & Fh).
  destruct (zd_add (-1000000) 1000000 (dfloor (d_of_f x)) (dlit 1 2) Gf Fh) as (Za & Va); [split; lia|rewrite Wf, Vh; simpl; lra|].
  assert (b2r (dadd (dfloor (d_of_f x)) (dlit 1 2)) = IZR (Zfloor (b2r x)) + / 2)%R as Ea.
  { rewrite Va, Wf, Vh. apply rnd64_id. replace (IZR (Zfloor (b2r x)) + / 2)%R with (IZR (2 * Zfloor (b2r x) + 1) * bpow radix2 (-1))%R; [apply rep64_scaled; lia|].
    rewrite plus_IZR, mult_IZR. change (bpow radix2 (-1)) with (/ 2)%R. lra. }
  destruct (zf_nar _ _ _ Za) as ((Fn & Hn) & Vn); [split; lia|]. fold sn in Fn, Hn, Vn.
  assert (b2r sn = IZR (Zfloor (b2r x)) + / 2)%R as En.
  { rewrite Vn, Ea. apply rnd32_id. replace (IZR (Zfloor (b2r x)) + / 2)%R with (IZR (2 * Zfloor (b2r x) + 1) * bpow radix2 (-1))%R; [apply rep32_scaled; lia|].
    rewrite plus_IZR, mult_IZR. change (bpow radix2 (-1)) with (/ 2)%R. lra. }
  clearbody sn. destruct (zf_sub (-1) 1 sn x Fn F) as ((Fd & Hd) & _); [split; lia|rewrite En; simpl; lra|]. simpl in Hd.
  destruct (zf_mul (-1) 1 (fsub sn x) s Fd Fs) as ((Fm & Hm) & _); [split; lia|simpl; nra|]. simpl in Hm.
  apply zf_add; auto; [split; lia|]. rewrite opp_IZR, plus_IZR. simpl. lra.
Qed.

Section Snap.
  Context (L : mathlib mix64) {E : env mix64} (EM : easel_maths L).
  Lemma snap_ok : forall k (x y r s : f32), 0 <= k <= 900000 -> zf (- k) x k -> zf (- k) y k -> zf 0 r 1009 -> zf 0 s 1 ->
    exists x' y' r' : f32, snap_pixel (M := mix64) L x y r s = (x', y', r') /\ zf (- (k + 1)) x' (k + 1) /\ zf (- (k + 1)) y' (k + 1) /\ zf (-1) r' 1010 /\
      ((b2r r <= 21)%R -> (b2r r' <= 22)%R).
  Proof.
    intros k x y r s Hk Hx Hy Hr Hs. unfold snap_pixel. destruct (@nlt (dbl mix64) _ _).
    2:{ exists x, y, r. split; [reflexivity|]. split; [eapply zf_weak; [exact Hx|lia|lia]|]. split; [eapply zf_weak; [exact Hy|lia|lia]|]. split; [eapply zf_weak; [exact Hr|lia|lia]|]. lra. }
    cbv zeta. change (@nlt (dbl mix64)) with dlt. change (@nar mix64) with f_of_d. change (@wid mix64) with d_of_f. change (@nmul (dbl mix64)) with dmul. change (@nsub (dbl mix64)) with dsub. change (@nadd (dbl mix64)) with dadd. change (@ndiv (dbl mix64)) with ddiv. change (@nofZ (dbl mix64)) with d_of_Z.
    change (@nadd (sng mix64)) with fadd. change (@nsub (sng mix64)) with fsub. change (@nmul (sng mix64)) with fmul. change (@flo mix64) with dfloor. change (@dec mix64) with dlit.
    eexists _, _, _. split; [reflexivity|]. split; [apply snapped_ok; auto|]. split; [apply snapped_ok; auto|]. change (car (sng mix64)) with f32.
    destruct Hr as (Fr & Hr). simpl in Hr. destruct (d_of_f_exact r Fr) as (Wr & Gr). destruct (zd_Z 2) as ((G2 & _) & W2); [lia|].
    destruct (zd_mul 0 2018 (d_of_f r) (d_of_Z 2) Gr G2) as (Z1 & V1); [split; lia|rewrite Wr, W2; simpl; lra|].
    pose proof (rnd64_err (b2r (d_of_f r) * b2r (d_of_Z 2)) 11 ltac:(rewrite Wr, W2; simpl; apply Rabs_le; lra) ltac:(lia)) as E1. rewrite <- V1, Wr, W2 in E1.
    destruct (zf_nar _ _ _ Z1) as ((F2 & H2) & V2); [split; lia|].
    pose proof (rnd32_err (b2r (dmul (d_of_f r) (d_of_Z 2))) 11 ltac:(destruct Z1 as (_ & Q); simpl in Q |- *; apply Rabs_le; lra) ltac:(lia)) as E2. rewrite <- V2 in E2.
    set (w := f_of_d (dmul (d_of_f r) (d_of_Z 2))) in *. clearbody w. simpl in H2, E1, E2. apply Rabs_le_inv in E1. apply Rabs_le_inv in E2.
    destruct (em_round L EM w F2) as (F3 & H3). { apply Rabs_le. lra. }
    set (q := roundf_ L w) in *. clearbody q. change (car (sng mix64)) with f32 in q. apply Rabs_le_inv in H3. destruct (d_of_f_exact q F3) as (Wq & Gq).
    destruct (zd_div (-1) 1010 (d_of_f q) (d_of_Z 2) Gq G2) as (Z4 & V4); [rewrite W2; lra|split; lia|rewrite Wq, W2; simpl; lra|].
    pose proof (rnd64_err (b2r (d_of_f q) / b2r (d_of_Z 2)) 10 ltac:(rewrite Wq, W2; simpl; apply Rabs_le; lra) ltac:(lia)) as E4. rewrite <- V4, Wq, W2 in E4.
    destruct (zf_nar _ _ _ Z4) as ((F5 & H5) & V5); [split; lia|].
    pose proof (rnd32_err (b2r (ddiv (d_of_f q) (d_of_Z 2))) 10 ltac:(destruct Z4 as (_ & Q); simpl in Q |- *; apply Rabs_le; lra) ltac:(lia)) as E5. rewrite <- V5 in E5.
    simpl in H5, E4, E5. apply Rabs_le_inv in E4. apply Rabs_le_inv in E5.
    set (sr := f_of_d (ddiv (d_of_f q) (d_of_Z 2))) in *. clearbody sr. assert (- (1/3) <= b2r sr - b2r r <= 1/3)%R as Hsr by lra. clear E1 E2 H3 E4 E5 V4 V5 V1 V2.
    destruct flit_half as (Fh & Vh). destruct BlendColorProofs.half_val as (Vd & Fd). destruct (d_of_f_exact sr F5) as (Wsr & Gsr).
    assert (fin (if dlt (d_of_f sr) (dlit 1 2) then f_of_d (dlit 1 2) else sr) /\ (-(1/2) <= b2r (if dlt (d_of_f sr) (dlit 1 2) then f_of_d (dlit 1 2) else sr) - b2r r <= 1/2)%R) as (F6 & H6).
    { rewrite dlt_spec, Wsr, Vd by auto. destruct (Rlt_bool_spec (b2r sr) (/2)); [split; [exact Fh|rewrite Vh; lra]|split; [exact F5|lra]]. }
    set (s2 := if dlt (d_of_f sr) (dlit 1 2) then f_of_d (dlit 1 2) else sr) in *. clearbody s2. destruct (d_of_f_exact s2 F6) as (W6 & G6).
    assert (fin (if dlt (dlit 9999 10000) (d_of_f s) then f_of_d (dsub (d_of_f s2) (dlit 1 10000)) else s2) /\ (-1 <= b2r (if dlt (dlit 9999 10000) (d_of_f s) then f_of_d (dsub (d_of_f s2) (dlit 1 10000)) else s2) - b2r r <= 1)%R) as (F7 & H7).
    { destruct (dlt _ _); [|split; [exact F6|lra]].
      assert (zd 0 (dlit 1 10000) 1 /\ zd 0 (dmul (dlit 1 10000) (d_of_Z 1000)) 1) as ((Ft & Ht) & (_ & Ht2)) by (split; dcst). simpl in Ht, Ht2.
      assert (b2r (dlit 1 10000) <= / 100)%R as Ht3.
      { destruct (zd_Z 1000) as ((G3 & _) & W3); [lia|]. destruct (zd_mul 0 1000 (dlit 1 10000) (d_of_Z 1000) Ft G3) as (_ & Vt); [split; lia|rewrite W3; simpl; lra|]. rewrite Vt, W3 in Ht2.
        destruct (Rle_or_lt (b2r (dlit 1 10000)) (/100)) as [C|C]; [exact C|exfalso]. assert (10 <= rnd64 (b2r (dlit 1 10000) * IZR 1000))%R by (apply rnd64_ge_r; [apply (rep64_IZR 10); lia|lra]). lra. }
      destruct (zd_sub (-2) 1010 (d_of_f s2) (dlit 1 10000) G6 Ft) as (Z8 & V8); [split; lia|rewrite W6; simpl; lra|].
      pose proof (rnd64_err (b2r (d_of_f s2) - b2r (dlit 1 10000)) 10 ltac:(rewrite W6; simpl; apply Rabs_le; lra) ltac:(lia)) as E8. rewrite <- V8, W6 in E8.
      destruct (zf_nar _ _ _ Z8) as ((F9 & H9) & V9); [split; lia|].
      pose proof (rnd32_err (b2r (dsub (d_of_f s2) (dlit 1 10000))) 10 ltac:(destruct Z8 as (_ & Q); simpl in Q |- *; apply Rabs_le; lra) ltac:(lia)) as E9. rewrite <- V9 in E9.
      simpl in E8, E9. apply Rabs_le_inv in E8. apply Rabs_le_inv in E9. split; [exact F9|]. lra. }
    set (s3 := if dlt (dlit 9999 10000) (d_of_f s) then _ else s2) in *. clearbody s3. destruct Hs as (Fs & Hs). simpl in Hs.
    destruct (zf_sub (-1) 1 s3 r F7 Fr) as ((FA & HA) & _); [split; lia|simpl; lra|]. simpl in HA.
    destruct (zf_mul (-1) 1 (fsub s3 r) s FA Fs) as ((FB & HB) & _); [split; lia|simpl; nra|]. simpl in HB.
    destruct (zf_add (-1) 1010 r (fmul (fsub s3 r) s) Fr FB) as (Zz & Vz); [split; lia|simpl; lra|]. split; [exact Zz|].
    intros C. rewrite Vz. apply rnd32_le_r; [apply (rep32_IZR 22); lia|]. lra.
  Qed.

  (** *** The number of dabs *)
  Lemma count_upto : forall (b : brush E) x y t n b', count_dabs_to L b x y t = (n, b') -> upto n.
  Proof.
    intros b x y t n b' H. unfold count_dabs_to in H. apply (f_equal fst) in H. cbn [fst] in H. subst n. cbv zeta.
    match goal with |- context [nanf_ L ?v] => set (r := v) end. clearbody r. change (car (sng mix64)) with f32 in r.
    change (@nlt (dbl mix64)) with dlt. change (@wid mix64) with d_of_f. change (@nofZ (dbl mix64) 0) with (d_of_Z 0). change (@nofZ (sng mix64) 0) with (f_of_Z 0). rewrite (em_nan L EM).
    destruct (is_nan r) eqn:N; cbn [orb]. { right. destruct (zf_Z 0) as ((F & _) & V); [lia|]. split; [exact F|rewrite V; simpl; lra]. }
    destruct (is_finite r) eqn:F.
    - destruct (d_of_f_exact r F) as (V & G). destruct (zd_Z 0) as ((G0 & _) & W0); [lia|]. rewrite dlt_spec, V, W0 by auto. right.
      destruct (Rlt_bool_spec (b2r r) 0) as [C|C]; [destruct (zf_Z 0) as ((F0 & _) & V0); [lia|]; split; [exact F0|rewrite V0; simpl; lra]|split; [exact F|lra]].
    - destruct r as [s| [|] | |s m e p]; try discriminate F; try discriminate N.
      + change (dlt (d_of_f (B754_infinity true)) (d_of_Z 0)) with true. right. destruct (zf_Z 0) as ((F0 & _) & V0); [lia|]; split; [exact F0|rewrite V0; simpl; lra].
      + change (dlt (d_of_f (B754_infinity false)) (d_of_Z 0)) with false. left. reflexivity.
  Qed.

  (** *** The position *)
  Definition nonposf (x : f32) : Prop := fin x /\ (b2r x <= 0)%R.
  Record offs_ok (b : brush E) : Prop := {
    of_mult : zf (-1000) (val b SET_OFFSET_MULTIPLIER) 3; of_x : zf (-1000) (val b SET_OFFSET_X) 1000; of_y : zf (-1000) (val b SET_OFFSET_Y) 1000;
    of_angle : zero (val b SET_OFFSET_ANGLE); of_asc : zero (val b SET_OFFSET_ANGLE_ASC); of_view : zero (val b SET_OFFSET_ANGLE_VIEW);
    of_angle2 : nonposf (val b SET_OFFSET_ANGLE_2); of_asc2 : nonposf (val b SET_OFFSET_ANGLE_2_ASC); of_view2 : nonposf (val b SET_OFFSET_ANGLE_2_VIEW);
    of_speed : zero (val b SET_OFFSET_BY_SPEED); of_random : zf (-1000) (val b SET_OFFSET_BY_RANDOM) 25; of_base : zf (-6) (base b SET_RADIUS_LOGARITHMIC) 6 }.

  Lemma base_radius_ok : forall x : f32, zf (-6) x 6 -> zf 0 (expf_ L x : f32) 729.
  Proof.
    intros x (F & H). simpl in H. destruct (em_exp L EM x 6 F) as (G & B); [simpl; lra|lia|]. split; [exact G|]. simpl in B |- *. lra.
  Qed.
  Lemma directional_ok : forall (b : brush E) r fl, offs_ok b -> zf 0 r 729 ->
    zf (-3240) (fst (directional_offsets L b r fl)) 3240 /\ zf (-3240) (snd (directional_offsets L b r fl)) 3240.
  Proof.
    intros b r fl O (Fr & Hr). pose proof (directional_limited L E b r fl (cl_neg L (em_c L EM))) as (L1 & L2).
    assert (fin (fst (directional_offsets L b r fl) : f32) /\ fin (snd (directional_offsets L b r fl) : f32)) as (F1 & F2).
    2:{ destruct L1 as [N|(_ & L1)]; [destruct (fst (directional_offsets L b r fl)); discriminate|]. destruct L2 as [N|(_ & L2)]; [destruct (snd (directional_offsets L b r fl)); discriminate|].
        split; split; auto. }
    clear L1 L2. unfold directional_offsets.
    destruct (of_mult b O) as (Fm & Hm). simpl in Hm. destruct (em_exp L EM (val b SET_OFFSET_MULTIPLIER) 3 Fm) as (Fe & He); [simpl; lra|lia|]. simpl in He.
    destruct (finitef_ L _) eqn:Ff; [|cbn [negb fst snd]; destruct (zf_Z 0) as ((F0 & _) & V0); [lia|]; split; exact F0]. cbn [negb]. cbv zeta.
    rewrite (zero_off _ (of_angle b O)), (zero_off _ (of_asc b O)), (zero_off _ (of_view b O)).
    rewrite (pos_nonpos _ (proj1 (of_angle2 b O)) (proj2 (of_angle2 b O))), (pos_nonpos _ (proj1 (of_asc2 b O)) (proj2 (of_asc2 b O))), (pos_nonpos _ (proj1 (of_view2 b O)) (proj2 (of_view2 b O))).
    cbn [fst snd]. change (@nlt (sng mix64)) with flt. change (@nmul (sng mix64)) with fmul. change (@nofZ (sng mix64)) with f_of_Z.
    destruct (of_x b O) as (Fx & Hx). destruct (of_y b O) as (Fy & Hy). simpl in Hx, Hy, Hr.
    set (e := expf_ L _) in *. set (vx := val b SET_OFFSET_X) in *. set (vy := val b SET_OFFSET_Y) in *. clearbody e vx vy. change (car (sng mix64)) with f32 in *.
    destruct (zf_mul 0 19683 r e Fr Fe) as ((Fb & Hb) & _); [split; lia|simpl; nra|]. set (bm := fmul r e) in *. clearbody bm. simpl in Hb.
    assert (forall v : f32, fin v -> (-1000 <= b2r v <= 1000)%R -> fin (fmul v bm)) as K.
    { intros v Fv Hv. apply fmul_spec; auto. apply Rle_trans with (bpow radix2 25); [|apply bpow_le; lia]. change (bpow radix2 25) with 33554432%R. apply Rabs_le. nra. }
    destruct (zf_Z 3240) as ((F3 & _) & V3); [lia|]. destruct (fopp_spec (f_of_Z 3240)) as (_ & Fo). specialize (Fo F3). rewrite !(cl_neg L (em_c L EM)).
    split; (destruct (flt _ _); [exact F3|destruct (flt _ _); [exact Fo|apply K; auto]]).
  Qed.

  Definition K3 : Z := 340000.
  Lemma position_ok : forall b : brush E, fair E -> (exists z, to_i (wid (st b STATE_FLIP)) = Ok z) -> offs_ok b ->
    zf (- K3) (st b STATE_ACTUAL_X) K3 -> zf (- K3) (st b STATE_ACTUAL_Y) K3 ->
    exists (x y : f32) g, dab_position L b = Ok (x, y, with_rng b g) /\ zf (-440000) x 440000 /\ zf (-440000) y 440000.
  Proof.
    intros b HF (z & Ez) O Hx Hy. unfold dab_position. cbv zeta. rewrite Ez. cbn [obind]. rewrite (zero_off _ (of_speed b O)).
    pose proof (base_radius_ok _ (of_base b O)) as Hr. destruct (directional_ok b _ z O Hr) as ((Fu & Hu) & (Fv & Hv)).
    set (u := directional_offsets L b _ z) in *. clearbody u. destruct u as (ox & oy). cbn [fst snd] in *. change (@nadd (sng mix64)) with fadd. change (@nmul (sng mix64)) with fmul.
    set (ax := st b STATE_ACTUAL_X) in *. set (ay := st b STATE_ACTUAL_Y) in *. set (rd := expf_ L _) in *. clearbody ax ay rd. change (car (sng mix64)) with f32 in *.
    unfold K3 in *. destruct Hx as (Fx & Hx). destruct Hy as (Fy & Hy). destruct Hr as (Fr & Hr). rewrite opp_IZR in Hx, Hy. simpl in *.
    destruct (zf_add (-343240) 343240 ax ox Fx Fu) as ((Fpx & Hpx) & _); [split; lia|simpl; lra|].
    destruct (zf_add (-343240) 343240 ay oy Fy Fv) as ((Fpy & Hpy) & _); [split; lia|simpl; lra|]. simpl in Hpx, Hpy.
    destruct (truthy (val b SET_OFFSET_BY_RANDOM)) eqn:T.
    2:{ exists (fadd ax ox), (fadd ay oy), (b_rng b). split; [destruct b; reflexivity|]. split; (split; [assumption|simpl; lra]). }
    destruct (gauss_ok E HF (b_rng b)) as (r1 & g1 & -> & (F1 & H1)). cbn [obind]. destruct (gauss_ok E HF g1) as (r2 & g2 & -> & (F2 & H2)). cbn [obind]. simpl in H1, H2.
    assert (zf 0 (Brush.pos (M := mix64) (val b SET_OFFSET_BY_RANDOM)) 25) as (Fa & Ha).
    { destruct (of_random b O) as (Fo & Ho). destruct (pos_ok 1000 (val b SET_OFFSET_BY_RANDOM)) as (Fp & Hp); [lia|eapply zf_weak; [exact (of_random b O)|lia|lia]|].
      split; [exact Fp|]. simpl in Ho, Hp |- *. split; [lra|]. revert Ho. unfold Brush.pos. destruct (@nlt (dbl mix64) _ _); [|lra]. change (@nofZ (sng mix64) 0) with (f_of_Z 0). destruct (zf_Z 0) as ((F0 & _) & V0); [lia|]. rewrite V0. simpl. lra. }
    set (am := Brush.pos _) in *. clearbody am. change (car (sng mix64)) with f32 in am. simpl in Ha.
    exists (fadd (fadd ax ox) (fmul (fmul r1 am) rd)), (fadd (fadd ay oy) (fmul (fmul r2 am) rd)), g2. split; [reflexivity|].
    assert (forall r p : f32, fin r -> (-5 <= b2r r <= 5)%R -> fin p -> (-343240 <= b2r p <= 343240)%R -> zf (-440000) (fadd p (fmul (fmul r am) rd)) 440000) as K.
    { intros r p Gr Hr' Gp Hp. destruct (zf_mul (-125) 125 r am Gr Fa) as ((Gm & Hm) & _); [split; lia|simpl; nra|]. simpl in Hm.
      destruct (zf_mul (-91125) 91125 _ rd Gm Fr) as ((Gn & Hn) & _); [split; lia|simpl; nra|]. simpl in Hn. apply zf_add; auto; [split; lia|simpl; lra]. }
    split; apply K; auto.
  Qed.
End Snap.
