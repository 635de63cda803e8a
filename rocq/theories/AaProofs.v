(** Plane geometry behind the antialiased distance: the division in
    [calculate_rr_antialiased] never becomes 0/0. *)
From Verif Require Import Base.
From Coq Require Import Reals Lra Psatz.
From Flocq Require Import Core.Core.
Open Scope R_scope.

(** [rho] is the radius of the disc of area one, 0.5642 *)
Definition rho : R := 9465530 / 16777216.

(** one axis: [e] is (pixel centre - clamped point); the clamped point [n]
    comes from [q]: pushed up, pushed down, or unchanged *)
Definition clamped (q n e : R) : Prop :=
  (q <= n /\ e >= / 2 - / 1000) \/ (n <= q /\ e <= - / 2 + / 1000 /\ e >= - / 2 - / 1000) \/
  (q = n /\ - / 2 - / 1000 <= e <= / 2 + / 1000).

Lemma poly : forall s, 0 <= s <= 1 ->
  56 / 100 * (1 - / 1000 - s * s) - / 50 <= (45 / 100 - (/ 2 - / 1000) * s) * (s * s) -> False.
Proof.
  intros s Hs H.
  assert (0 <= (1 - s) * (101 / 100 * (1 + s) - 499 / 1000 * (1 + s + s * s))) as P.
  { apply Rmult_le_pos; [lra|]. assert (s * s <= 1 * 1) by (apply Rmult_le_compat; lra). lra. }
  lra.
Qed.

Lemma core : forall c s ex ey qx qy t nx ny,
  0 <= c <= 1 -> 0 <= s <= 1 -> 1 - / 1000 <= c * c + s * s <= 1 + / 1000 ->
  Rabs (nx - rho * s) <= / 200 -> Rabs (ny + rho * c) <= / 200 ->
  t = (nx + ex) * c + (ny + ey) * s ->
  Rabs (qx - t * c) <= / 1000 -> Rabs (qy - t * s) <= / 1000 ->
  Rabs ex <= / 2 + / 1000 -> Rabs ey <= / 2 + / 1000 ->
  (ex >= / 2 - / 1000 \/ nx <= qx) -> (ey <= - / 2 + / 1000 \/ qy <= ny) ->
  ex * s - ey * c >= 45 / 100.
Proof.
  intros c s ex ey qx qy t nx ny Hc Hs CS Nx Ny T Qx Qy Ex Ey X Y.
  apply Rabs_le_inv in Nx, Ny, Qx, Qy, Ex, Ey.
  assert (56 / 100 <= rho <= 57 / 100) as R by (unfold rho; lra).
  assert (0 <= c * s) as CS0 by (apply Rmult_le_pos; lra).
  assert (c * s <= 6 / 10) as CS1.
  { pose proof (Rle_0_sqr (c - s)) as S. unfold Rsqr in S. lra. }
  assert (c <= 1) by lra.
  set (a := nx - rho * s) in *. set (b := ny + rho * c) in *.
  assert (t = a * c + b * s + ex * c + ey * s) as T2 by (subst t a b; ring).
  assert (Rabs (a * c + b * s) <= / 100) as AB.
  { apply Rabs_le.
    assert (Rabs (a * c) <= / 200 * 1) as A1.
    { rewrite Rabs_mult. apply Rmult_le_compat; try apply Rabs_pos; apply Rabs_le; lra. }
    assert (Rabs (b * s) <= / 200 * 1) as A2.
    { rewrite Rabs_mult. apply Rmult_le_compat; try apply Rabs_pos; apply Rabs_le; lra. }
    apply Rabs_le_inv in A1, A2. lra. }
  apply Rabs_le_inv in AB. set (ab := a * c + b * s) in *.
  clearbody ab. clear T.
  destruct X as [X|X], Y as [Y|Y].
  - (* both good *)
    assert (1 - / 1000 <= s + c) by nra.
    assert (ex * s >= (/ 2 - / 1000) * s) by nra.
    assert (- ey * c >= (/ 2 - / 1000) * c) by nra. lra.
  - (* x good, y bad *)
    assert (ex <= / 2 + / 1000) by lra.
    assert (t * s <= - (rho * c) + / 100) as B1 by (unfold b in *; lra).
    assert (ab * s <= / 100) by nra. assert (- / 100 <= ab * s) by nra.
    assert (ex * c * s + ey * (s * s) <= - (rho * c) + / 50) as B2.
    { rewrite T2 in B1. nra. }
    assert (ex * (c * s) >= (/ 2 - / 1000) * (c * s)) as B3 by nra.
    assert (- ey * (s * s) >= rho * c + (/ 2 - / 1000) * (c * s) - / 50) as B4 by nra.
    destruct (Rle_lt_dec (45 / 100) (ex * s - ey * c)) as [|L]; [lra|exfalso].
    assert (ex * s >= (/ 2 - / 1000) * s) as B5 by nra.
    assert (- ey * c < 45 / 100 - (/ 2 - / 1000) * s) as B6 by lra.
    assert (- ey * (s * s) * c <= (45 / 100 - (/ 2 - / 1000) * s) * (s * s)) as B7 by nra.
    assert (- ey * (s * s) * c >= rho * (c * c) - / 50) as B8 by nra.
    assert (rho * (c * c) >= 56 / 100 * (1 - / 1000 - s * s)) as B9.
    { assert (56 / 100 * (c * c) <= rho * (c * c)) by (apply Rmult_le_compat_r; [apply Rle_0_sqr|lra]). lra. }
    assert (56 / 100 * (1 - / 1000 - s * s) - / 50 <= (45 / 100 - (/ 2 - / 1000) * s) * (s * s)) as B10 by lra.
    exact (poly s Hs B10).
  - (* x bad, y good *)
    assert (t * c >= rho * s - / 100) as B1 by (unfold a in *; lra).
    assert (ab * c <= / 100) by nra. assert (- / 100 <= ab * c) by nra.
    assert (ex * (c * c) + ey * (c * s) >= rho * s - / 50) as B2.
    { rewrite T2 in B1. nra. }
    assert (- ey * (c * s) >= (/ 2 - / 1000) * (c * s)) as B3 by nra.
    assert (ex * (c * c) >= rho * s + (/ 2 - / 1000) * (c * s) - / 50) as B4 by nra.
    destruct (Rle_lt_dec (45 / 100) (ex * s - ey * c)) as [|L]; [lra|exfalso].
    assert (- ey * c >= (/ 2 - / 1000) * c) as B5 by nra.
    assert (ex * s < 45 / 100 - (/ 2 - / 1000) * c) as B6 by lra.
    assert (ex * (c * c) * s <= (45 / 100 - (/ 2 - / 1000) * c) * (c * c)) as B7 by nra.
    assert (ex * (c * c) * s >= rho * (s * s) - / 50) as B8 by nra.
    assert (rho * (s * s) >= 56 / 100 * (1 - / 1000 - c * c)) as B9.
    { assert (56 / 100 * (s * s) <= rho * (s * s)) by (apply Rmult_le_compat_r; [apply Rle_0_sqr|lra]). lra. }
    assert (56 / 100 * (1 - / 1000 - c * c) - / 50 <= (45 / 100 - (/ 2 - / 1000) * c) * (c * c)) as B10 by lra.
    exact (poly c Hc B10).
  - (* both bad: impossible *)
    exfalso.
    assert (t * c >= rho * s - / 100) as B1 by (unfold a in *; lra).
    assert (t * s <= - (rho * c) + / 100) as B2 by (unfold b in *; lra).
    assert (t * c * s >= rho * (s * s) - / 100) by nra.
    assert (t * s * c <= - (rho * (c * c)) + / 100) by nra.
    nra.
Qed.

Lemma Rabs_neg_diff : forall a b d, Rabs (a - b) <= d -> Rabs (- a - - b) <= d.
Proof. intros. replace (- a - - b) with (- (a - b)) by ring. rewrite Rabs_Ropp. auto. Qed.

(** one axis of the clamping, with tolerances *)
Definition axis (q n e : R) : Prop :=
  Rabs e <= / 2 + / 1000 /\ (e >= / 2 - / 1000 \/ n <= q) /\ (e <= - / 2 + / 1000 \/ q <= n).

Lemma axis_opp : forall q n e, axis q n e -> axis (- q) (- n) (- e).
Proof. intros q n e (A & B & C). split; [rewrite Rabs_Ropp; auto|]. split; [destruct C; [left|right]; lra|destruct B; [left|right]; lra]. Qed.

Ltac solve_reflected :=
  match goal with
  | |- _ <= _ <= _ => lra
  | |- _ \/ _ => solve [repeat match goal with H : _ \/ _ |- _ => destruct H end; solve [left; lra | right; lra]]
  | |- _ = _ => subst; ring
  | H : Rabs ?a <= ?d |- Rabs ?b <= ?d =>
      solve [replace b with a by ring; exact H | replace b with (- a) by ring; rewrite Rabs_Ropp; exact H]
  end.

Lemma core_signed : forall c s ex ey qx qy t nx ny,
  Rabs c <= 1 -> Rabs s <= 1 -> 1 - / 1000 <= c * c + s * s <= 1 + / 1000 ->
  Rabs (nx - rho * s) <= / 200 -> Rabs (ny + rho * c) <= / 200 ->
  t = (nx + ex) * c + (ny + ey) * s ->
  Rabs (qx - t * c) <= / 1000 -> Rabs (qy - t * s) <= / 1000 ->
  axis qx nx ex -> axis qy ny ey ->
  ex * s - ey * c >= 45 / 100.
Proof.
  intros c s ex ey qx qy t nx ny Hc Hs CS Nx Ny T Qx Qy (Ax1 & Ax2 & Ax3) (Ay1 & Ay2 & Ay3).
  apply Rabs_le_inv in Hc, Hs.
  assert (forall a b d, Rabs (a - b) <= d -> Rabs (- a - - b) <= d) as NG by (intros; apply Rabs_neg_diff; auto).
  destruct (Rle_lt_dec 0 s) as [S|S], (Rle_lt_dec 0 c) as [C|C].
  - eapply (core c s ex ey qx qy t nx ny); eauto; try lra.
  - replace (ex * s - ey * c) with (ex * s - (- ey) * (- c)) by ring.
    apply (core (- c) s ex (- ey) qx (- qy) (- t) nx (- ny)); solve_reflected.
  - replace (ex * s - ey * c) with ((- ex) * (- s) - ey * c) by ring.
    apply (core c (- s) (- ex) ey (- qx) qy (- t) (- nx) ny); solve_reflected.
  - replace (ex * s - ey * c) with ((- ex) * (- s) - (- ey) * (- c)) by ring.
    apply (core (- c) (- s) (- ex) (- ey) (- qx) (- qy) t (- nx) (- ny)); solve_reflected.
Qed.

(** if the clamped point is [rho * (s, -c)] then the pixel centre is more than
    one unit away from the line on that side *)
Lemma side : forall c s px py qx qy nx ny,
  Rabs c <= 1 -> Rabs s <= 1 -> 1 - / 1000 <= c * c + s * s <= 1 + / 1000 ->
  Rabs (nx - rho * s) <= / 200 -> Rabs (ny + rho * c) <= / 200 ->
  Rabs (qx - (px * c + py * s) * c) <= / 1000 -> Rabs (qy - (px * c + py * s) * s) <= / 1000 ->
  axis qx nx (px - nx) -> axis qy ny (py - ny) ->
  px * s - py * c >= 1 + 3 / 1000 /\ Rabs (2 * (c * s)) <= 1 + / 1000.
Proof.
  intros c s px py qx qy nx ny Hc Hs CS Nx Ny Qx Qy Ax Ay. split.
  - assert ((px - nx) * s - (py - ny) * c >= 45 / 100) as K.
    { apply (core_signed c s (px - nx) (py - ny) qx qy (px * c + py * s) nx ny); auto. ring. }
    assert (Rabs ((nx - rho * s) * s) <= / 200 * 1) as A1.
    { rewrite Rabs_mult. apply Rmult_le_compat; auto using Rabs_pos. }
    assert (Rabs ((ny + rho * c) * c) <= / 200 * 1) as A2.
    { rewrite Rabs_mult. apply Rmult_le_compat; auto using Rabs_pos. }
    apply Rabs_le_inv in A1, A2.
    assert (rho * (c * c + s * s) >= rho * (1 - / 1000)) as R1 by (apply Rle_ge, Rmult_le_compat_l; [unfold rho|]; lra).
    replace (px * s - py * c) with ((px - nx) * s - (py - ny) * c + (nx - rho * s) * s - (ny + rho * c) * c + rho * (c * c + s * s)) by ring.
    unfold rho in *. lra.
  - apply Rabs_le.
    pose proof (Rle_0_sqr (c - s)) as S1. pose proof (Rle_0_sqr (c + s)) as S2. unfold Rsqr in *. lra.
Qed.
