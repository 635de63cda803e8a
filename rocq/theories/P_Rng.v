(** Properties C19, C20 and C47: the random generator.  All statements are about
    the bit-exact double computation. *)
From Verif Require Import Base F32 F32Proofs Rng RngProofs.
From Coq Require Import Reals Lra.
From Flocq Require Import Core.Core IEEE754.BinarySingleNaN.
Local Open Scope Z_scope.

(** [n] calls of rng_double_next: the numbers returned and the generator after
    them *)
Fixpoint draw_many (n : nat) (g : rng) : outcome (list f64 * rng) :=
  match n with
  | O => Ok ([], g)
  | S n => let* (v, g) := rng_next g in let* (l, g) := draw_many n g in Ok (v :: l, g)
  end.

Definition unit_interval (v : f64) : Prop := is_finite v = true /\ (0 <= B2R v < 1)%R.

Lemma draw_many_draws : forall n g, draw_many n g = draws n g.
Proof. reflexivity. Qed.

Lemma fresh_drawn : forall w b, length b = 19%nat -> drawn w 0 (mkRng (win (xd w) 0) b AtConst).
Proof. intros. split; auto. Qed.

Lemma xd_unit : forall w k, unit_interval (xd w k).
Proof.
  intros. unfold xd. destruct (d52_val (xs w k)) as (V & F). split; auto. rewrite V. apply v52_lt1, mod_range.
Qed.

(** ** C19: for every seed, seeding ends (37 rounds always suffice) without
    leaving its arrays or reading uninitialised memory, and so does every number
    of draws; all numbers returned are in [0,1). *)
Theorem C19_safe_and_in_range : forall seed, exists g,
  (forall rounds, (37 <= rounds)%nat -> rng_new rounds seed = Some (Ok g)) /\
  forall n, exists l g', draw_many n g = Ok (l, g') /\ length l = n /\ Forall unit_interval l.
Proof.
  intros seed. destruct (seeded seed) as (w & L & R & _ & S).
  exists (mkRng (win (xd w) 0) (repeat None 19) AtConst). split.
  - intros. unfold rng_new. apply (S (mkRng (repeat None 10) (repeat None 19) AtConst) (repeat None 10)); auto.
  - intros n. destruct (draws_ok w n 0 _ L (fresh_drawn w (repeat None 19) eq_refl)) as (g' & E & _).
    rewrite draw_many_draws. eexists _, g'. split; [exact E|]. split.
    + rewrite map_length, seq_length. reflexivity.
    + apply Forall_forall. intros v Iv. apply in_map_iff in Iv. destruct Iv as (i & <- & _). apply xd_unit.
Qed.

(** ** C20: what the numbers are.  The seed determines an integer sequence
    x(0), x(1), ... in [0, 2^52) with x(n+10) = x(n) + x(n+3) mod 2^52, and the
    k-th draw (from 0) is exactly x(19*(k/10) + k mod 10) / 2^52: ten numbers
    are used, nine skipped.  The same holds after re-seeding a generator that
    was used before, so its history does not matter. *)
Definition lagged (x : nat -> Z) : Prop :=
  (forall n, 0 <= x n < 2 ^ 52) /\ forall n, x (n + 10)%nat = (x n + x (n + 3)%nat) mod 2 ^ 52.
Definition is_number (v : f64) (a : Z) : Prop := is_finite v = true /\ (B2R v * 2 ^ 52 = IZR a)%R.
(** the stream of generator [g] is the one of [x] *)
Definition streams (g : rng) (x : nat -> Z) : Prop :=
  forall n, exists l g', draw_many n g = Ok (l, g') /\ length l = n /\
    forall k, (k < n)%nat -> is_number (nth k l B754_nan) (x (19 * (k / 10) + k mod 10)%nat).

Lemma xs_lagged : forall w, length w = 10%nat -> Forall (fun a => 0 <= a < M52) w -> lagged (xs w).
Proof.
  intros w L F. change (2 ^ 52) with M52. split; intros; [apply xs_range; auto|apply xs_rec; auto].
Qed.

Lemma xd_number : forall w k, length w = 10%nat -> Forall (fun a => 0 <= a < M52) w -> is_number (xd w k) (xs w k).
Proof.
  intros w k L F. unfold xd. destruct (d52_val (xs w k)) as (V & Fi). split; auto. rewrite V.
  rewrite Z.mod_small by (apply xs_range; auto). unfold v52. rewrite Rmult_assoc.
  replace (2 ^ 52)%R with 4503599627370496%R by (simpl; lra). rewrite bp52. ring.
Qed.

Lemma win_streams : forall w b, length w = 10%nat -> Forall (fun a => 0 <= a < M52) w -> length b = 19%nat ->
  streams (mkRng (win (xd w) 0) b AtConst) (xs w).
Proof.
  intros w b L F Lb n. destruct (draws_ok w n 0 _ L (fresh_drawn w b Lb)) as (g' & E & _).
  rewrite draw_many_draws. eexists _, g'. split; [exact E|]. split.
  - rewrite map_length, seq_length. reflexivity.
  - intros k Hk. rewrite (nth_indep _ _ (xd w (dpos (0 + 0)))) by (rewrite map_length, seq_length; auto).
    rewrite (map_nth (fun i => xd w (dpos (0 + i)))). rewrite seq_nth by auto. apply xd_number; auto.
Qed.

(** generators that can exist: made by rng_double_new, then used in any way *)
Inductive reachable : rng -> Prop :=
| r_new : forall n seed g, rng_new n seed = Some (Ok g) -> reachable g
| r_next : forall g v g', reachable g -> rng_next g = Ok (v, g') -> reachable g'
| r_seed : forall g n seed g', reachable g -> rng_set_seed n g seed = Some (Ok g') -> reachable g'
| r_array : forall g aa n u aa', reachable g -> Z.max 10 n <= Z.of_nat (length aa) ->
    get_array mod_sum (ran_u g) aa n = Ok (u, aa') -> reachable (mkRng u (rng_buf g) (rng_pos g)).

Lemma set_seed_more : forall n m g seed r, (n <= m)%nat ->
  rng_set_seed n g seed = Some r -> rng_set_seed m g seed = Some r.
Proof.
  intros n m g seed r Hm H. unfold rng_set_seed in *. destruct (seed_start seed); auto.
  destruct (seed_loop mod_sum d0 n (seed_bits seed) (TT - 1) a) as [o|] eqn:E; [|discriminate].
  rewrite (seed_loop_more _ _ _ _ _ _ _ _ _ Hm E). exact H.
Qed.

Lemma set_seed_det : forall n m g seed g1 g2,
  rng_set_seed n g seed = Some (Ok g1) -> rng_set_seed m g seed = Some (Ok g2) -> g1 = g2.
Proof.
  intros n m g seed g1 g2 H1 H2. apply (set_seed_more _ (n + m)) in H1; [|lia]. apply (set_seed_more _ (n + m)) in H2; [|lia].
  congruence.
Qed.

(** a usable generator: its state is a window of some sequence *)
Definition usable (g : rng) : Prop :=
  length (rng_buf g) = 19%nat /\ (exists w p, length w = 10%nat /\ ran_u g = win (xd w) p) /\
  (rng_pos g = AtConst \/ exists r w q, (1 <= r <= 10)%nat /\ rng_pos g = AtBuf (Z.of_nat r) /\
      (forall i, (i < 10)%nat -> nth_error (rng_buf g) i = Some (Some (xd w (19 * q + i)))) /\
      nth_error (rng_buf g) 10 = Some (Some (d_of_Z (-1)))).

Lemma win_marr : forall w p, win (xd w) p = marr d52 (map Some (map (xs w) (seq p 10))).
Proof. intros. unfold win, marr. rewrite !map_map. reflexivity. Qed.

Lemma usable_next : forall g v g', usable g -> rng_next g = Ok (v, g') -> usable g'.
Proof.
  intros g v g' (Lb & (w & p & L & U) & P) H.
  assert (C : forall v g', rng_cycle g = Ok (v, g') -> usable g').
  { intros v0 g0 H0. unfold rng_cycle in H0. rewrite U in H0. change QUALITY with 19 in H0.
    destruct (get_array_seq f64 mod_sum (xd w) (ms_xd w L) p (rng_buf g) 19) as (b & E & Lb' & N); [lia|].
    rewrite E in H0. cbn [obind] in H0. change KK with 10 in H0. rewrite wr_ok in H0 by lia. cbn [obind] in H0.
    apply obind_ok in H0. destruct H0 as (v1 & _ & H0). injection H0 as <- <-.
    split; [cbn [rng_buf]; rewrite upd_length; lia|]. split; [cbn [ran_u]; eauto|].
    right. exists 1%nat, (wn w p), 0%nat. cbn [rng_buf rng_pos]. split; [lia|]. split; [reflexivity|].
    change (Z.to_nat 10) with 10%nat. split.
    - intros i Hi. rewrite nth_error_upd by lia. destruct (Nat.eqb_spec 10 i); [lia|].
      replace i with (Z.to_nat (Z.of_nat i)) at 1 by lia. rewrite N by lia.
      destruct (Z.ltb_spec (Z.of_nat i) (Z.max 10 19)); [|lia]. rewrite Nat2Z.id.
      unfold xd. do 3 f_equal. unfold xs. rewrite <- wn_add. do 2 f_equal. lia.
    - rewrite nth_error_upd by lia. reflexivity. }
  unfold rng_next in H. destruct P as [P|(r & w2 & q & Hr & P & B & S)]; rewrite P in H; [eauto|].
  apply obind_ok in H. destruct H as (v0 & R & H). destruct (dle d0 v0) eqn:D; [|eauto].
  injection H as <- <-. split; [auto|]. split; [eauto|]. right.
  assert (r <> 10)%nat as Nr.
  { intros ->. rewrite (rd_some _ _ (Z.of_nat 10) _ ltac:(lia) S) in R. injection R as <-. rewrite dle_m1 in D. discriminate. }
  exists (r + 1)%nat, w2, q. cbn [rng_buf rng_pos]. split; [lia|]. split; [f_equal; lia|]. auto.
Qed.

Lemma reachable_usable : forall g, reachable g -> usable g.
Proof.
  intros g H. induction H.
  - destruct (seeded seed) as (w & L & _ & _ & S).
    assert (g = mkRng (win (xd w) 0) (repeat None 19) AtConst) as ->.
    { apply (set_seed_det n 37 _ seed _ _ H). apply (S (mkRng (repeat None 10) (repeat None 19) AtConst) (repeat None 10)); auto. }
    split; [reflexivity|]. split; [cbn [ran_u]; eauto|left; reflexivity].
  - eapply usable_next; eauto.
  - destruct IHreachable as (Lb & (w0 & p & L0 & U) & _).
    destruct (seeded seed) as (w & L & _ & _ & S).
    assert (g' = mkRng (win (xd w) 0) (rng_buf g) AtConst) as ->.
    { apply (set_seed_det n 37 _ seed _ _ H0). apply (S g (map Some (map (xs w0) (seq p 10)))); auto. }
    split; [exact Lb|]. split; [cbn [ran_u]; eauto|left; reflexivity].
  - destruct IHreachable as (Lb & (w & p & L & U) & P).
    destruct (get_array_seq f64 mod_sum (xd w) (ms_xd w L) p aa n H0) as (b & E & _).
    rewrite U, E in H1. injection H1 as <- <-. split; [exact Lb|]. split; [cbn [ran_u]; eauto|exact P].
Qed.

Theorem C20_stream_is_a_function_of_the_seed : forall seed, exists x, lagged x /\
  (forall n g, rng_new n seed = Some (Ok g) -> streams g x) /\
  (forall g n g', reachable g -> rng_set_seed n g seed = Some (Ok g') -> streams g' x).
Proof.
  intros seed. destruct (seeded seed) as (w & L & R & _ & S). exists (xs w).
  split; [apply xs_lagged; auto|]. split.
  - intros n g H. assert (g = mkRng (win (xd w) 0) (repeat None 19) AtConst) as ->.
    { apply (set_seed_det n 37 _ seed _ _ H). apply (S (mkRng (repeat None 10) (repeat None 19) AtConst) (repeat None 10)); auto. }
    apply win_streams; auto.
  - intros g n g' Hg H. destruct (reachable_usable g Hg) as (Lb & (w0 & p & L0 & U) & _).
    assert (g' = mkRng (win (xd w) 0) (rng_buf g) AtConst) as ->.
    { apply (set_seed_det n 37 _ seed _ _ H). apply (S g (map Some (map (xs w0) (seq p 10)))); auto. }
    apply win_streams; auto.
Qed.

(** Two generators with the same seed agree for ever: the streams determine the
    returned doubles. *)
Theorem C20_same_seed_same_numbers : forall seed n1 n2 g1 g2 n,
  rng_new n1 seed = Some (Ok g1) -> rng_new n2 seed = Some (Ok g2) -> draw_many n g1 = draw_many n g2.
Proof. intros. assert (g1 = g2) as -> by (eapply set_seed_det; eauto). reflexivity. Qed.

(** ** Several generators in one program.  [ids] says which generator is asked
    at each moment; whatever the interleaving, each generator returns its own
    stream. *)
Fixpoint interleave (ids : list nat) (gs : nat -> rng) : outcome (list (nat * f64)) :=
  match ids with
  | [] => Ok []
  | i :: ids =>
      let* (v, g) := rng_next (gs i) in
      let* out := interleave ids (fun j => if Nat.eqb j i then g else gs j) in
      Ok ((i, v) :: out)
  end.

Definition drawn_by (i : nat) (out : list (nat * f64)) : list f64 :=
  map snd (filter (fun p => Nat.eqb (fst p) i) out).

Theorem C20_generators_do_not_interact : forall ids gs out, interleave ids gs = Ok out ->
  forall i, exists g', draw_many (count_occ Nat.eq_dec ids i) (gs i) = Ok (drawn_by i out, g').
Proof.
  induction ids as [|j ids IH]; intros gs out H i.
  - injection H as <-. exists (gs i). reflexivity.
  - cbn [interleave] in H. apply obind_ok in H. destruct H as ((v & g) & E & H).
    apply obind_ok in H. destruct H as (o & E2 & H). injection H as <-.
    specialize (IH _ _ E2 i). destruct IH as (g' & IH). cbn [count_occ]. unfold drawn_by. cbn [filter fst].
    destruct (Nat.eq_dec j i) as [->|N].
    + rewrite Nat.eqb_refl in *. cbn [draw_many map snd]. rewrite E. cbn [obind].
      rewrite IH. cbn [obind]. exists g'. reflexivity.
    + destruct (Nat.eqb_spec j i); [contradiction|]. destruct (Nat.eqb_spec i j); [congruence|]. exists g'. exact IH.
Qed.

(** and interleaved drawing never fails *)
Theorem C20_interleaved_drawing_is_safe : forall ids gs, (forall i, reachable (gs i)) ->
  exists out, interleave ids gs = Ok out.
Proof.
  assert (Step : forall g, usable g -> exists v g', rng_next g = Ok (v, g')).
  { intros g (Lb & (w & p & L & U) & P).
    assert (exists v g', rng_cycle g = Ok (v, g')) as C.
    { unfold rng_cycle. rewrite U. change QUALITY with 19.
      destruct (get_array_seq f64 mod_sum (xd w) (ms_xd w L) p (rng_buf g) 19) as (b & E & Lb' & N); [lia|].
      rewrite E. cbn [obind]. change KK with 10. rewrite wr_ok by lia. cbn [obind].
      rewrite (rd_some _ _ 0 (xd w p)); [cbn [obind]; eauto|lia|].
      change (Z.to_nat 0) with 0%nat. change (Z.to_nat 10) with 10%nat.
      rewrite nth_error_upd by lia. cbn [Nat.eqb]. specialize (N 0). change (Z.to_nat 0) with 0%nat in N.
      rewrite N by lia. rewrite Nat.add_0_r. reflexivity. }
    unfold rng_next. destruct P as [P|(r & w2 & q & Hr & P & B & S)]; rewrite P; auto.
    assert (exists v, nth_error (rng_buf g) (Z.to_nat (Z.of_nat r)) = Some (Some v)) as (v & Ev).
    { rewrite Nat2Z.id. destruct (Nat.eq_dec r 10) as [->|]; [eauto|]. rewrite B by lia. eauto. }
    rewrite (rd_some _ _ (Z.of_nat r) _ ltac:(lia) Ev). cbn [obind]. destruct (dle d0 v); eauto. }
  induction ids as [|j ids IH]; intros gs H; [eexists; reflexivity|].
  cbn [interleave]. destruct (Step (gs j)) as (v & g & E); [apply reachable_usable; auto|]. rewrite E. cbn [obind].
  destruct (IH (fun k => if Nat.eqb k j then g else gs k)) as (out & ->); [|cbn [obind]; eauto].
  intros i. destruct (Nat.eqb i j); auto. eapply r_next; eauto.
Qed.

(** ** Granularity of rng_double_get_array: requests of ten or more numbers can
    be split at will, they continue the same sequence ... *)
Definition filled (aa : list (option f64)) (n : Z) (x : nat -> f64) : Prop :=
  forall i, 0 <= i < n -> nth_error aa (Z.to_nat i) = Some (Some (x (Z.to_nat i))).

Theorem C20_array_requests_concatenate : forall seed fuel g, rng_new fuel seed = Some (Ok g) ->
  exists x : nat -> f64, forall n m a1 a2, 10 <= n <= Z.of_nat (length a1) -> 10 <= m <= Z.of_nat (length a2) ->
    exists u1 u2 b1 b2,
      get_array mod_sum (ran_u g) a1 n = Ok (u1, b1) /\ get_array mod_sum u1 a2 m = Ok (u2, b2) /\
      filled b1 n x /\ filled b2 m (fun i => x (Z.to_nat n + i)%nat).
Proof.
  intros seed fuel g H. destruct (seeded seed) as (w & L & R & _ & S).
  assert (g = mkRng (win (xd w) 0) (repeat None 19) AtConst) as ->.
  { apply (set_seed_det fuel 37 _ seed _ _ H). apply (S (mkRng (repeat None 10) (repeat None 19) AtConst) (repeat None 10)); auto. }
  exists (xd w). intros n m a1 a2 Hn Hm. cbn [ran_u].
  destruct (get_array_seq f64 mod_sum (xd w) (ms_xd w L) 0 a1 n) as (b1 & E1 & _ & N1); [lia|].
  rewrite Z.max_r in E1, N1 by lia.
  destruct (get_array_seq f64 mod_sum (xd w) (ms_xd w L) (0 + Z.to_nat n) a2 m) as (b2 & E2 & _ & N2); [lia|].
  rewrite Z.max_r in E2, N2 by lia.
  eexists _, _, b1, b2. split; [exact E1|]. split; [exact E2|]. split.
  - intros i Hi. rewrite N1 by lia. destruct (Z.ltb_spec i n); [|lia]. reflexivity.
  - intros i Hi. rewrite N2 by lia. destruct (Z.ltb_spec i m); [|lia]. reflexivity.
Qed.

(** ... but a request of fewer than ten numbers skips ahead by ten: the claim for
    all request sizes is false. *)
Theorem C20_small_array_requests_skip : forall seed fuel g a n, rng_new fuel seed = Some (Ok g) ->
  10 <= Z.of_nat (length a) -> n < 10 ->
  get_array mod_sum (ran_u g) a n = get_array mod_sum (ran_u g) a 10.
Proof.
  intros. unfold get_array. change KK with 10. rewrite !Z.max_l by lia.
  replace (Z.to_nat (n - 10)) with 0%nat by lia. reflexivity.
Qed.

(** ** C47: the generator never degenerates: among ten consecutive elements of
    its sequence at least one is odd (so not all are zero), for every seed and
    for ever. *)
Theorem C47_never_degenerates : forall seed, exists x, lagged x /\
  (forall n g, rng_new n seed = Some (Ok g) -> streams g x) /\
  forall n, exists i, (i < 10)%nat /\ Z.odd (x (n + i)%nat) = true.
Proof.
  intros seed. destruct (seeded seed) as (w & L & R & O & S). exists (xs w).
  split; [apply xs_lagged; auto|]. split; [|exact O].
  intros n g H. assert (g = mkRng (win (xd w) 0) (repeat None 19) AtConst) as ->.
  { apply (set_seed_det n 37 _ seed _ _ H). apply (S (mkRng (repeat None 10) (repeat None 19) AtConst) (repeat None 10)); auto. }
  apply win_streams; auto.
Qed.

(** ** A concrete case: seed 310952 of the project's own test.  The test expects
    0.13283300318196644696 as element 2008*1009 of the sequence and
    0.64694669426788964373 as element 1008*2009; its comment wonders why the
    two differ: they are different elements. *)
(* To reach element two million the case uses polynomials modulo
   z^10 = z^3 + 1: [jump N] is z^N, computed by squaring. *)
Definition poly10 := list Z.
Definition mulz (p : poly10) : poly10 :=
  match p with
  | [a;b;c;d;e;f;g;h;i;j] => [j; a; b; (c + j) mod M52; d; e; f; g; h; i]
  | _ => []
  end.
Definition axpy (c : Z) (q r : poly10) : poly10 := map (fun t => (c * fst t + snd t) mod M52) (combine q r).
Definition mulp (p q : poly10) : poly10 := fold_right (fun c acc => axpy c q (mulz acc)) (repeat 0 10) p.
Definition pone : poly10 := [1;0;0;0;0;0;0;0;0;0].
Definition pz : poly10 := [0;1;0;0;0;0;0;0;0;0].
Fixpoint jump_pos (n : positive) : poly10 :=
  match n with
  | xH => pz
  | xO n => let h := jump_pos n in mulp h h
  | xI n => let h := jump_pos n in mulp pz (mulp h h)
  end.
Definition eqm (a b : Z) : Prop := a mod M52 = b mod M52.
Fixpoint act (x : nat -> Z) (p : poly10) (n : nat) : Z :=
  match p with [] => 0 | c :: p => c * x n + act x p (S n) end.

Lemma eqm_add : forall a b c d, eqm a b -> eqm c d -> eqm (a + c) (b + d).
Proof. unfold eqm. intros. rewrite Z.add_mod, H, H0, <- Z.add_mod; auto; discriminate. Qed.
Lemma eqm_mul : forall a b c d, eqm a b -> eqm c d -> eqm (a * c) (b * d).
Proof. unfold eqm. intros. rewrite Z.mul_mod, H, H0, <- Z.mul_mod; auto; discriminate. Qed.
Lemma eqm_mod : forall a, eqm (a mod M52) a.
Proof. unfold eqm. intros. apply Z.mod_mod. discriminate. Qed.
Lemma eqm_mul_mod : forall a b, eqm ((a mod M52) * b) (a * b).
Proof. intros. apply eqm_mul; [apply eqm_mod|reflexivity]. Qed.

Section Jump.
  Context (x : nat -> Z) (Hx : forall n, x (n + 10)%nat = (x n + x (n + 3)%nat) mod M52).

  Lemma mulz_len : forall p, length p = 10%nat -> length (mulz p) = 10%nat.
  Proof. intros p H. do 10 (destruct p as [|? p]; [discriminate|]). destruct p; [reflexivity|discriminate]. Qed.
  Lemma axpy_len : forall c q r, length q = 10%nat -> length r = 10%nat -> length (axpy c q r) = 10%nat.
  Proof. intros. unfold axpy. rewrite map_length, combine_length, H, H0. reflexivity. Qed.
  Lemma mulp_len : forall p q, length q = 10%nat -> length (mulp p q) = 10%nat.
  Proof. induction p; intros; [reflexivity|]. apply axpy_len; [exact H|]. apply mulz_len. exact (IHp q H). Qed.

  Lemma act_mulz : forall p n, length p = 10%nat -> eqm (act x (mulz p) n) (act x p (S n)).
  Proof.
    intros p n H. do 10 (destruct p as [|? p]; [discriminate|]). destruct p; [clear H|discriminate].
    cbn [mulz act]. pose proof (Hx n) as E. replace (n + 10)%nat with (S (S (S (S (S (S (S (S (S (S n)))))))))) in E by lia.
    replace (n + 3)%nat with (S (S (S n))) in E by lia. rewrite E. clear E.
    unfold eqm. rewrite <- (Z.add_mod_idemp_l), <- (Z.add_mod_idemp_r) by discriminate.
    set (m := (z1 + z8) mod M52).
    assert (Em : forall k, exists t, m * k = (z1 + z8) * k + M52 * t).
    { intros k. exists (- ((z1 + z8) / M52) * k). subst m. rewrite Z.mod_eq by discriminate. ring. }
    assert (Ex : exists t, (x n + x (S (S (S n)))) mod M52 = x n + x (S (S (S n))) + M52 * t).
    { exists (- ((x n + x (S (S (S n)))) / M52)). rewrite Z.mod_eq by discriminate. ring. }
    rewrite Z.add_mod_idemp_l, Z.add_mod_idemp_r by discriminate.
    destruct (Em (x (S (S (S n))))) as (t1 & ->). destruct Ex as (t2 & ->).
    match goal with |- ?a mod _ = ?b mod _ => replace a with (b + (t1 - z8 * t2) * M52) by ring end.
    apply Z.mod_add. discriminate.
  Qed.
  Lemma act_axpy : forall q r c n, length q = length r -> eqm (act x (axpy c q r) n) (c * act x q n + act x r n).
  Proof.
    induction q as [|a q IH]; intros [|b r] c n H; try discriminate; [unfold eqm; cbn [act axpy combine map]; f_equal; lia|].
    unfold axpy in *. cbn [combine map act fst snd]. injection H as H.
    replace (c * (a * x n + act x q (S n)) + (b * x n + act x r (S n))) with ((c * a + b) * x n + (c * act x q (S n) + act x r (S n))) by ring.
    apply eqm_add; [apply eqm_mul_mod|auto].
  Qed.
  Lemma act_mulp : forall q b, length q = 10%nat -> (forall n, eqm (act x q n) (x (n + b)%nat)) ->
    forall p n, eqm (act x (mulp p q) n) (act x p (n + b)).
  Proof.
    intros q b L Hq. induction p as [|c p IH]; intros n.
    - cbn [mulp fold_right repeat act]. unfold eqm. f_equal; lia.
    - change (mulp (c :: p) q) with (axpy c q (mulz (mulp p q))). cbn [act].
      etransitivity; [apply act_axpy; rewrite mulz_len; auto; apply mulp_len; auto|].
      apply eqm_add; [apply eqm_mul; [reflexivity|auto]|].
      etransitivity; [apply act_mulz, mulp_len; auto|]. apply (IH (S n)).
  Qed.
  Definition reps (p : poly10) (a : nat) : Prop := length p = 10%nat /\ forall n, eqm (act x p n) (x (n + a)%nat).
  Lemma reps_mul : forall p q a b, reps p a -> reps q b -> reps (mulp p q) (a + b).
  Proof.
    intros p q a b (Lp & Hp) (Lq & Hq). split; [apply mulp_len; auto|]. intros n.
    etransitivity; [apply (act_mulp q b); auto|]. etransitivity; [apply Hp|]. replace (n + b + a)%nat with (n + (a + b))%nat by lia. reflexivity.
  Qed.
  Lemma reps_z : reps pz 1.
  Proof. split; [reflexivity|]. intros n. cbn [pz act]. rewrite Nat.add_1_r. unfold eqm. f_equal. lia. Qed.
  Lemma reps_jump : forall n, reps (jump_pos n) (Pos.to_nat n).
  Proof.
    induction n; cbn [jump_pos].
    - replace (Pos.to_nat n~1) with (1 + (Pos.to_nat n + Pos.to_nat n))%nat by lia. auto using reps_mul, reps_z.
    - replace (Pos.to_nat n~0) with (Pos.to_nat n + Pos.to_nat n)%nat by lia. auto using reps_mul.
    - apply reps_z.
  Qed.
End Jump.

Lemma act_dot : forall x p n, act x p n = fold_right (fun t s => fst t * snd t + s) 0 (combine p (map x (seq n (length p)))).
Proof. induction p; intros; [reflexivity|]. cbn [act length seq map combine fold_right fst snd]. rewrite IHp. reflexivity. Qed.

Lemma jump_xs : forall w n, length w = 10%nat -> Forall (fun a => 0 <= a < M52) w ->
  xs w (Pos.to_nat n) = fold_right (fun t s => fst t * snd t + s) 0 (combine (jump_pos n) w) mod M52.
Proof.
  intros w n L F. destruct (reps_jump (xs w) (fun k => xs_rec w k L) n) as (Lp & H). specialize (H 0%nat).
  rewrite Nat.add_0_l in H. unfold eqm in H. rewrite (Z.mod_small (xs w (Pos.to_nat n))) in H by (apply xs_range; auto).
  rewrite <- H, act_dot, Lp. do 3 f_equal. apply map_Some_inj. rewrite <- (win_xs w L). unfold win. rewrite map_map. reflexivity.
Qed.

Definition zstate (fuel : nat) (seed : Z) : outcome (list (option Z)) :=
  match seed_loop zms 0 fuel (seed_bits seed) (TT - 1) (zseed_start seed) with
  | Some (Ok u) => seed_finish zms (repeat None 10) u
  | _ => UB
  end.

Definition w310952 : list Z :=
  [1261258613272632; 2390857035222081; 2784838488669479; 4469926429705289; 3290417562611600;
   1704186556434138; 4176649215630581; 3295613011852040; 3471852572042; 563614060073398].

Lemma w310952_state : zstate 37 310952 = Ok (map Some w310952).
Proof. vm_compute. reflexivity. Qed.
Lemma w310952_range : Forall (fun a => 0 <= a < M52) w310952.
Proof. unfold w310952. repeat (apply Forall_cons; [unfold M52; lia|]). apply Forall_nil. Qed.
Lemma w310952_a : xs w310952 (Z.to_nat (2008 * 1009)) = 598226663632808.
Proof. change (Z.to_nat (2008 * 1009)) with (Pos.to_nat 2026072). rewrite jump_xs by (reflexivity || exact w310952_range). vm_compute. reflexivity. Qed.
Lemma w310952_b : xs w310952 (Z.to_nat (1008 * 2009)) = 2913588891233442.
Proof. change (Z.to_nat (1008 * 2009)) with (Pos.to_nat 2025072). rewrite jump_xs by (reflexivity || exact w310952_range). vm_compute. reflexivity. Qed.

Lemma rng_from_zstate : forall fuel seed w, zstate fuel seed = Ok (map Some w) -> length w = 10%nat ->
  rng_new fuel seed = Some (Ok (mkRng (win (xd w) 0) (repeat None 19) AtConst)).
Proof.
  intros fuel seed w E L.
  unfold rng_new, rng_set_seed. rewrite seed_start_hom, d0_d52.
  rewrite (seed_loop_nat zms mod_sum d52 mod_sum_hom). unfold zstate in E.
  destruct (seed_loop zms 0 fuel (seed_bits seed) (TT - 1) (zseed_start seed)) as [[u| |]|]; try discriminate E.
  cbn [option_map omap obind ran_u rng_buf].
  change (repeat (@None f64) 10) with (marr d52 (repeat None 10)).
  rewrite (seed_finish_nat zms mod_sum d52 mod_sum_hom), E. cbn [omap obind].
  rewrite marr_win by auto. reflexivity.
Qed.

Example C20_case : exists g x, rng_new 37 310952 = Some (Ok g) /\ streams g x /\ lagged x /\
  x 0%nat = 1261258613272632 /\
  x (Z.to_nat (2008 * 1009)) = 598226663632808 /\ x (Z.to_nat (1008 * 2009)) = 2913588891233442.
Proof.
  pose proof w310952_state as E.
  assert (L : length w310952 = 10%nat) by reflexivity.
  pose proof w310952_range as F.
  exists (mkRng (win (xd w310952) 0) (repeat None 19) AtConst), (xs w310952). split; [|split; [|split]].
  - apply rng_from_zstate; auto.
  - apply win_streams; auto.
  - apply xs_lagged; auto.
  - split; [reflexivity|]. split; [exact w310952_a|exact w310952_b].
Qed.

Print Assumptions C19_safe_and_in_range.
Print Assumptions C20_stream_is_a_function_of_the_seed.
Print Assumptions C47_never_degenerates.
