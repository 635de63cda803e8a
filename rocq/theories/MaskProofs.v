(** Proofs about the run-length encoder and decoder of dab masks. *)
From Verif Require Import Base F32 Blend Mask.

(** ** The encoder without the capacity check *)

Definition penc (st : list Z * Z) (v : Z) : list Z * Z :=
  if v =? 0 then (fst st, snd st + 1)
  else if snd st =? 0 then (fst st ++ [v], 0)
  else (fst st ++ [0; u16 (snd st * 4); v], 0).

Definition bump (st : list Z * Z) (k : Z) : list Z * Z := (fst st, snd st + k).

Definition row_vals (V : Z -> Z -> Z) (x0 x1 yp : Z) : list Z :=
  map (fun xp => V xp yp) (zrange x0 (Z.to_nat (x1 - x0 + 1))).

Definition prow (V : Z -> Z -> Z) (x0 x1 : Z) (st : list Z * Z) (yp : Z) : list Z * Z :=
  bump (fold_left penc (row_vals V x0 x1 yp) (bump st x0)) (TILE - Z.max x0 (x1 + 1)).

Definition plen (st : list Z * Z) : Z := Z.of_nat (length (fst st)).

Lemma penc_grow : forall st v, plen st <= plen (penc st v).
Proof.
  intros. unfold penc, plen. destruct (v =? 0); [simpl; lia|].
  destruct (snd st =? 0); simpl; rewrite app_length; simpl; lia.
Qed.
Lemma penc_fold_grow : forall l st, plen st <= plen (fold_left penc l st).
Proof. induction l; intros; simpl; [lia|]. specialize (IHl (penc st a)). pose proof (penc_grow st a). lia. Qed.
Lemma bump_len : forall st k, plen (bump st k) = plen st. Proof. reflexivity. Qed.
Lemma prow_grow : forall V x0 x1 st y, plen st <= plen (prow V x0 x1 st y).
Proof. intros. unfold prow. rewrite bump_len. pose proof (penc_fold_grow (row_vals V x0 x1 y) (bump st x0)). rewrite bump_len in H. lia. Qed.
Lemma prow_fold_grow : forall V x0 x1 l st, plen st <= plen (fold_left (prow V x0 x1) l st).
Proof. induction l; intros; simpl; [lia|]. specialize (IHl (prow V x0 x1 st a)). pose proof (prow_grow V x0 x1 st a). lia. Qed.

Lemma emit_ok : forall buf v, Z.of_nat (length buf) < MASK_CAP -> emit buf v = Ok (buf ++ [v]).
Proof. intros. unfold emit. destruct (Z.ltb_spec (Z.of_nat (length buf)) MASK_CAP); [auto|lia]. Qed.
Lemma emit_inv : forall buf v b, emit buf v = Ok b -> b = buf ++ [v] /\ Z.of_nat (length b) <= MASK_CAP.
Proof.
  intros. unfold emit in H. destruct (Z.ltb_spec (Z.of_nat (length buf)) MASK_CAP); [|discriminate].
  inversion H. split; auto. rewrite app_length. simpl. lia.
Qed.

Lemma enc_pixel_ok : forall st v, plen (penc st v) <= MASK_CAP -> enc_pixel st v = Ok (penc st v).
Proof.
  intros [buf skip] v. unfold enc_pixel, penc, plen. cbn [fst snd]. intros H.
  destruct (v =? 0); [reflexivity|]. destruct (skip =? 0).
  - cbn [fst] in H. rewrite app_length in H. cbn [length] in H. cbn [obind]. rewrite emit_ok by lia. reflexivity.
  - cbn [fst] in H. rewrite app_length in H. cbn [length] in H.
    rewrite emit_ok by lia. cbn [obind]. rewrite emit_ok by (rewrite app_length; cbn [length]; lia). cbn [obind].
    rewrite emit_ok by (rewrite !app_length; cbn [length]; lia). cbn [obind].
    rewrite <- !app_assoc. reflexivity.
Qed.

Lemma enc_pixel_inv : forall st v st', enc_pixel st v = Ok st' -> st' = penc st v.
Proof.
  intros [buf skip] v st'. unfold enc_pixel, penc. cbn [fst snd].
  destruct (v =? 0); [congruence|]. destruct (skip =? 0).
  - cbn [obind]. intros H. apply obind_ok in H. destruct H as (b & E & H). apply emit_inv in E. destruct E; subst. congruence.
  - intros H. apply obind_ok in H. destruct H as (b & E & H).
    apply obind_ok in E. destruct E as (b1 & E1 & E2). apply emit_inv in E1, E2. destruct E1, E2. subst.
    apply obind_ok in H. destruct H as (b2 & E & H). apply emit_inv in E. destruct E. subst.
    inversion H. rewrite <- !app_assoc. reflexivity.
Qed.

(** fold of the pixel step *)
Lemma enc_fold_ok : forall opa yp (V : Z -> Z -> Z) l st,
  (forall x, In x l -> opa x yp = Ok (V x yp)) ->
  plen (fold_left penc (map (fun x => V x yp) l) st) <= MASK_CAP ->
  ofold (fun st xp => let* v := opa xp yp in enc_pixel st v) l st
    = Ok (fold_left penc (map (fun x => V x yp) l) st).
Proof.
  induction l; intros st Ho Hl; cbn [ofold map fold_left] in *; [reflexivity|].
  rewrite Ho by (simpl; auto). cbn [obind].
  rewrite enc_pixel_ok by (eapply Z.le_trans; [apply penc_fold_grow|exact Hl]).
  cbn [obind]. apply IHl; auto. intros. apply Ho; simpl; auto.
Qed.
Lemma enc_fold_inv : forall opa yp (V : Z -> Z -> Z) l st st',
  (forall x, In x l -> opa x yp = Ok (V x yp)) ->
  ofold (fun st xp => let* v := opa xp yp in enc_pixel st v) l st = Ok st' ->
  st' = fold_left penc (map (fun x => V x yp) l) st.
Proof.
  induction l; intros st st' Ho Hl; cbn [ofold map fold_left] in *; [congruence|].
  rewrite Ho in Hl by (simpl; auto). cbn [obind] in Hl.
  apply obind_ok in Hl. destruct Hl as (s1 & E & H). apply enc_pixel_inv in E. subst s1.
  apply IHl; auto. intros. apply Ho; simpl; auto.
Qed.

Lemma skip_bound : forall l st, 0 <= snd st -> 0 <= snd (fold_left penc l st) <= snd st + Z.of_nat (length l).
Proof.
  induction l; intros st H; cbn [fold_left length]; [lia|].
  assert (0 <= snd (penc st a) <= snd st + 1).
  { unfold penc. destruct (a =? 0); cbn [snd]; [lia|]. destruct (snd st =? 0); cbn [snd]; lia. }
  specialize (IHl (penc st a)). lia.
Qed.

Lemma enc_row_inv : forall opa (V : Z -> Z -> Z) x0 x1 st yp st',
  (forall x, x0 <= x <= x1 -> opa x yp = Ok (V x yp)) ->
  enc_row opa x0 x1 st yp = Ok st' -> st' = prow V x0 x1 st yp.
Proof.
  intros opa V x0 x1 st yp st' Ho H. unfold enc_row in H.
  apply obind_ok in H. destruct H as (s & E & H). apply int_val_inv in E. destruct E as (-> & _).
  apply obind_ok in H. destruct H as ((b & k) & E & H).
  apply (enc_fold_inv opa yp V) in E.
  2:{ intros x Hx. apply in_zrange in Hx. apply Ho. lia. }
  apply obind_ok in H. destruct H as (s2 & E2 & H). apply int_val_inv in E2. destruct E2 as (-> & _).
  inversion H. unfold prow, bump. unfold row_vals. fold (bump st x0). unfold bump.
  rewrite <- E. reflexivity.
Qed.

Lemma TILE_val : TILE = 64. Proof. reflexivity. Qed.

Lemma enc_row_ok : forall opa (V : Z -> Z -> Z) x0 x1 st yp,
  (forall x, x0 <= x <= x1 -> opa x yp = Ok (V x yp)) ->
  0 <= x0 <= 1048576 -> x1 <= 63 -> 0 <= snd st <= 1048576 * 1024 ->
  plen (prow V x0 x1 st yp) <= MASK_CAP ->
  enc_row opa x0 x1 st yp = Ok (prow V x0 x1 st yp).
Proof.
  intros opa V x0 x1 st yp Ho H0 H1 Hs Hl. unfold enc_row.
  rewrite int_val_ok by (unfold INT_MIN, INT_MAX; lia). cbn [obind].
  rewrite (enc_fold_ok opa yp V).
  2:{ intros x Hx. apply in_zrange in Hx. apply Ho. lia. }
  2:{ exact Hl. }
  cbn [obind]. unfold prow. unfold row_vals. fold (bump st x0).
  remember (fold_left penc _ _) as r eqn:Er. destruct r as [b k].
  assert (0 <= k <= snd st + x0 + Z.max 0 (x1 - x0 + 1)).
  { assert (X := skip_bound (map (fun xp => V xp yp) (zrange x0 (Z.to_nat (x1 - x0 + 1)))) (bump st x0)).
    rewrite <- Er in X. rewrite map_length, zrange_length in X. cbn [snd bump] in X. lia. }
  rewrite TILE_val. rewrite int_val_ok by (unfold INT_MIN, INT_MAX; lia). reflexivity.
Qed.

Lemma prow_skip : forall V x0 x1 st yp, 0 <= x0 -> x1 <= 63 -> 0 <= snd st ->
  0 <= snd (prow V x0 x1 st yp) + Z.max 0 (x0 - 64) /\
  snd (prow V x0 x1 st yp) <= snd st + 64.
Proof.
  intros. unfold prow.
  assert (X := skip_bound (row_vals V x0 x1 yp) (bump st x0)).
  unfold row_vals in X at 3. rewrite map_length, zrange_length in X. cbn [snd bump] in *.
  rewrite TILE_val. destruct (Z_le_gt_dec x0 x1).
  - lia.
  - unfold row_vals. replace (Z.to_nat (x1 - x0 + 1)) with 0%nat by lia. cbn [zrange map seq fold_left bump snd fst]. lia.
Qed.

Lemma prow_skip_pos : forall V x0 x1 st yp, 0 <= x0 -> x1 <= 63 -> 0 <= snd st ->
  0 <= snd (prow V x0 x1 st yp).
Proof.
  intros. destruct (Z_le_gt_dec x0 x1).
  - assert (X := prow_skip V x0 x1 st yp H H0 H1). lia.
  - unfold prow, row_vals. replace (Z.to_nat (x1 - x0 + 1)) with 0%nat by lia.
    cbn [zrange map seq fold_left bump snd]. rewrite TILE_val. lia.
Qed.

Definition final (V : Z -> Z -> Z) (x0 y0 x1 y1 : Z) : list Z * Z :=
  fold_left (prow V x0 x1) (zrange y0 (Z.to_nat (y1 - y0 + 1))) ([], y0 * TILE).

Lemma rows_inv : forall opa (V : Z -> Z -> Z) x0 x1 l st st',
  (forall x y, In y l -> x0 <= x <= x1 -> opa x y = Ok (V x y)) ->
  ofold (enc_row opa x0 x1) l st = Ok st' -> st' = fold_left (prow V x0 x1) l st.
Proof.
  induction l; intros st st' Ho H; cbn [ofold fold_left] in *; [congruence|].
  apply obind_ok in H. destruct H as (s & E & H).
  apply (enc_row_inv opa V) in E. 2:{ intros. apply Ho; simpl; auto. }
  subst s. apply IHl; auto. intros. apply Ho; simpl; auto.
Qed.

Lemma rows_ok : forall opa (V : Z -> Z -> Z) x0 x1 l st,
  (forall x y, In y l -> x0 <= x <= x1 -> opa x y = Ok (V x y)) ->
  0 <= x0 <= 1048576 -> x1 <= 63 ->
  0 <= snd st -> snd st + 64 * Z.of_nat (length l) <= 1048576 * 1024 ->
  plen (fold_left (prow V x0 x1) l st) <= MASK_CAP ->
  ofold (enc_row opa x0 x1) l st = Ok (fold_left (prow V x0 x1) l st).
Proof.
  induction l; intros st Ho H0 H1 Hs Hs2 Hl; cbn [ofold fold_left length] in *; [reflexivity|].
  rewrite (enc_row_ok opa V); auto.
  2:{ intros; apply Ho; simpl; auto. }
  2:{ lia. }
  2:{ eapply Z.le_trans; [apply prow_fold_grow|exact Hl]. }
  cbn [obind]. apply IHl; auto.
  - intros; apply Ho; simpl; auto.
  - apply prow_skip_pos; lia.
  - assert (X := prow_skip V x0 x1 st a ltac:(lia) H1 Hs). lia.
Qed.

Lemma encode_inv : forall opa (V : Z -> Z -> Z) x0 y0 x1 y1 buf,
  (forall x y, x0 <= x <= x1 -> y0 <= y <= y1 -> opa x y = Ok (V x y)) ->
  encode opa x0 y0 x1 y1 = Ok buf ->
  buf = fst (final V x0 y0 x1 y1) ++ [0; 0] /\ Z.of_nat (length buf) <= MASK_CAP.
Proof.
  intros opa V x0 y0 x1 y1 buf Ho H. unfold encode in H.
  apply obind_ok in H. destruct H as (s & E & H). apply int_val_inv in E. destruct E as (-> & _).
  apply obind_ok in H. destruct H as ((b & k) & E & H).
  apply (rows_inv opa V) in E. 2:{ intros x y Hy Hx. apply in_zrange in Hy. apply Ho; lia. }
  apply obind_ok in H. destruct H as (b2 & E2 & H). apply emit_inv in E2, H.
  destruct E2, H. subst. unfold final. rewrite <- E. cbn [fst]. rewrite <- app_assoc. auto.
  rewrite <- app_assoc in H2. auto.
Qed.

Lemma encode_ok : forall opa (V : Z -> Z -> Z) x0 y0 x1 y1,
  (forall x y, x0 <= x <= x1 -> y0 <= y <= y1 -> opa x y = Ok (V x y)) ->
  0 <= x0 <= 1048576 -> x1 <= 63 -> 0 <= y0 <= 1048576 -> y1 <= 63 ->
  plen (final V x0 y0 x1 y1) + 2 <= MASK_CAP ->
  encode opa x0 y0 x1 y1 = Ok (fst (final V x0 y0 x1 y1) ++ [0; 0]).
Proof.
  intros opa V x0 y0 x1 y1 Ho Hx0 Hx1 Hy0 Hy1 Hl. unfold encode. rewrite TILE_val.
  rewrite int_val_ok by (unfold INT_MIN, INT_MAX; lia). cbn [obind].
  rewrite (rows_ok opa V); auto.
  2:{ intros x y Hy Hx. apply in_zrange in Hy. apply Ho; lia. }
  2:{ cbn [snd]. lia. }
  2:{ cbn [snd]. rewrite zrange_length. lia. }
  2:{ unfold final in Hl. rewrite TILE_val in Hl. lia. }
  cbn [obind]. unfold final in *. rewrite TILE_val in *.
  remember (fold_left _ _ _) as r eqn:Er. destruct r as [b k]. unfold plen in Hl. cbn [fst] in Hl.
  cbn [obind]. rewrite emit_ok by lia. cbn [obind]. rewrite emit_ok by (rewrite app_length; cbn [length]; lia).
  cbn [fst]. rewrite <- app_assoc. reflexivity.
Qed.

(** ** Decoding *)

Definition visits_ok (i : Z) (st : list Z * Z) (vs : list (Z * Z)) : Prop :=
  0 <= snd st <= i /\
  forall S (body : S -> Z -> Z -> outcome S) rest s,
    mask_loop body (fst st ++ rest) 0 s =
    let* s' := ofold (fun s qv => body s (fst qv) (snd qv)) vs s in
    mask_loop body rest (4 * (i - snd st)) s'.

Lemma visits_zero : forall i st vs, visits_ok i st vs -> visits_ok (i + 1) (penc st 0) vs.
Proof.
  intros i st vs (A & B). split; cbn [penc fst snd Z.eqb]; [lia|].
  intros. rewrite B. replace (i + 1 - (snd st + 1)) with (i - snd st) by lia. reflexivity.
Qed.

Lemma visits_bump : forall i st vs k, 0 <= snd st + k -> visits_ok i st vs -> visits_ok (i + k) (bump st k) vs.
Proof.
  intros i st vs k Hk (A & B). split; cbn [bump fst snd]; [lia|].
  intros. rewrite B. replace (i + k - (snd st + k)) with (i - snd st) by lia. reflexivity.
Qed.

Lemma visits_nonzero : forall i st vs v, 0 < v < 65536 -> i < 4096 ->
  visits_ok i st vs -> visits_ok (i + 1) (penc st v) (vs ++ [(4 * i, v)]).
Proof.
  intros i st vs v Hv Hi (A & B). unfold penc. destruct (Z.eqb_spec v 0); [lia|].
  assert (forall S (body : S -> Z -> Z -> outcome S) rest s,
            mask_loop body (v :: rest) (4 * i) s =
            let* s' := body s (4 * i) v in mask_loop body rest (4 * (i + 1 - 0)) s') as L.
  { intros. cbn [mask_loop]. destruct (Z.eqb_spec v 0); [lia|]. replace (4 * i + 4) with (4 * (i + 1 - 0)) by lia. reflexivity. }
  destruct (Z.eqb_spec (snd st) 0) as [Z0|Z0]; split; cbn [fst snd]; try lia; intros.
  - rewrite <- app_assoc. rewrite B. rewrite Z0. rewrite ofold_app.
    destruct (ofold _ vs s); cbn [obind]; auto. cbn [app]. rewrite Z.sub_0_r, L. cbn [ofold fst snd].
    destruct (body a (4 * i) v); reflexivity.
  - rewrite <- app_assoc. rewrite B. rewrite ofold_app.
    destruct (ofold _ vs s); cbn [obind]; auto. cbn [app].
    rewrite u16_small by lia. cbn [mask_loop Z.eqb].
    destruct (Z.eqb_spec (snd st * 4) 0); [lia|].
    replace (4 * (i - snd st) + snd st * 4) with (4 * i) by lia.
    change (if v =? 0 then _ else _) with (mask_loop body (v :: rest) (4 * i) a).
    rewrite L. cbn [ofold fst snd]. destruct (body a (4 * i) v); reflexivity.
Qed.

Definition row_visits (V : Z -> Z -> Z) (y : Z) (xs : list Z) : list (Z * Z) :=
  map (fun x => (4 * (64 * y + x), V x y)) (filter (fun x => negb (V x y =? 0)) xs).

Lemma row_visits_ok : forall V y n x0 st vs,
  0 <= x0 -> x0 + Z.of_nat n <= 64 -> 0 <= y <= 63 ->
  (forall x, x0 <= x < x0 + Z.of_nat n -> 0 <= V x y < 65536) ->
  visits_ok (64 * y + x0) st vs ->
  visits_ok (64 * y + x0 + Z.of_nat n)
    (fold_left penc (map (fun x => V x y) (zrange x0 n)) st)
    (vs ++ row_visits V y (zrange x0 n)).
Proof.
  induction n; intros x0 st vs H0 H1 Hy HV Hvs.
  - cbn [zrange map seq fold_left row_visits filter]. rewrite app_nil_r.
    replace (64 * y + x0 + Z.of_nat 0) with (64 * y + x0) by lia. exact Hvs.
  - assert (zrange x0 (S n) = x0 :: zrange (x0 + 1) n) as E.
    { unfold zrange. cbn [seq map]. rewrite <- seq_shift, map_map. f_equal; [lia|].
      apply map_ext. intros. lia. }
    rewrite E. cbn [map fold_left].
    replace (64 * y + x0 + Z.of_nat (S n)) with (64 * y + (x0 + 1) + Z.of_nat n) by lia.
    unfold row_visits. cbn [filter]. destruct (Z.eqb_spec (V x0 y) 0) as [Z0|Z0]; cbn [negb].
    + rewrite Z0. apply IHn; try lia. { intros; apply HV; lia. }
      replace (64 * y + (x0 + 1)) with (64 * y + x0 + 1) by lia. apply visits_zero; auto.
    + cbn [map]. change (?a :: ?b) with ([a] ++ b). rewrite app_assoc.
      apply IHn; try lia. { intros; apply HV; lia. }
      replace (64 * y + (x0 + 1)) with (64 * y + x0 + 1) by lia.
      apply visits_nonzero; auto; [|lia]. assert (X := HV x0 ltac:(lia)). lia.
Qed.

(** the box as a list of cells in row-major order *)
Definition cells (x0 y0 x1 y1 : Z) : list (Z * Z) :=
  flat_map (fun y => map (fun x => (x, y)) (zrange x0 (Z.to_nat (x1 - x0 + 1))))
           (zrange y0 (Z.to_nat (y1 - y0 + 1))).

Lemma prow_visits : forall V x0 x1 y st vs,
  0 <= x0 -> x1 <= 63 -> 0 <= y <= 63 ->
  (forall x, x0 <= x <= x1 -> 0 <= V x y < 65536) ->
  visits_ok (64 * y) st vs ->
  visits_ok (64 * (y + 1)) (prow V x0 x1 st y)
    (vs ++ row_visits V y (zrange x0 (Z.to_nat (x1 - x0 + 1)))).
Proof.
  intros V x0 x1 y st vs H0 H1 Hy HV Hvs. unfold prow.
  assert (0 <= snd st) as Sp by (destruct Hvs; lia).
  assert (S0 := prow_skip_pos V x0 x1 st y H0 H1 Sp). unfold prow in S0. cbn [bump snd] in S0.
  pose proof (visits_bump (64 * y) st vs x0 ltac:(lia) Hvs) as Hb.
  destruct (Z_le_gt_dec x0 x1).
  - replace (64 * (y + 1)) with (64 * y + x0 + Z.of_nat (Z.to_nat (x1 - x0 + 1)) + (TILE - Z.max x0 (x1 + 1)))
      by (rewrite TILE_val; lia).
    apply visits_bump; [exact S0|]. apply row_visits_ok; try lia; auto.
    intros; apply HV; lia.
  - replace (Z.to_nat (x1 - x0 + 1)) with 0%nat in * by lia.
    cbn [zrange map seq row_visits filter]. rewrite app_nil_r.
    unfold row_vals in *. replace (Z.to_nat (x1 - x0 + 1)) with 0%nat in * by lia.
    cbn [zrange map seq fold_left] in *.
    replace (64 * (y + 1)) with (64 * y + x0 + (TILE - Z.max x0 (x1 + 1))) by (rewrite TILE_val; lia).
    apply visits_bump; auto.
Qed.

Lemma rows_visits : forall V x0 x1 n y0 st vs,
  0 <= x0 -> x1 <= 63 -> 0 <= y0 -> y0 + Z.of_nat n <= 64 ->
  (forall x y, x0 <= x <= x1 -> y0 <= y < y0 + Z.of_nat n -> 0 <= V x y < 65536) ->
  visits_ok (64 * y0) st vs ->
  visits_ok (64 * (y0 + Z.of_nat n)) (fold_left (prow V x0 x1) (zrange y0 n) st)
    (vs ++ flat_map (fun y => row_visits V y (zrange x0 (Z.to_nat (x1 - x0 + 1)))) (zrange y0 n)).
Proof.
  induction n; intros y0 st vs Hx0 Hx1 Hy0 Hn HV Hvs.
  - cbn [zrange map seq fold_left flat_map]. rewrite app_nil_r.
    replace (y0 + Z.of_nat 0) with y0 by lia. auto.
  - assert (zrange y0 (S n) = y0 :: zrange (y0 + 1) n) as E.
    { unfold zrange. cbn [seq map]. rewrite <- seq_shift, map_map. f_equal; [lia|].
      apply map_ext. intros. lia. }
    rewrite E. cbn [fold_left flat_map]. rewrite app_assoc.
    replace (y0 + Z.of_nat (S n)) with (y0 + 1 + Z.of_nat n) by lia.
    apply IHn; try lia.
    { intros; apply HV; lia. }
    apply prow_visits; auto; try lia. intros; apply HV; lia.
Qed.

Lemma visits_empty : forall k, 0 <= k -> visits_ok k ([], k) [].
Proof. intros. split; cbn [snd fst]; [lia|]. intros. cbn [ofold obind app]. replace (4 * (k - k)) with 0 by lia. reflexivity. Qed.

(** what decoding any encoded mask does *)
Lemma decode_final : forall V x0 y0 x1 y1 S (body : S -> Z -> Z -> outcome S) rest s,
  0 <= x0 -> x1 <= 63 -> 0 <= y0 -> y1 <= 63 ->
  (forall x y, x0 <= x <= x1 -> y0 <= y <= y1 -> 0 <= V x y < 65536) ->
  mask_loop body ((fst (final V x0 y0 x1 y1) ++ [0; 0]) ++ rest) 0 s =
  ofold (fun s xy => body s (4 * (64 * snd xy + fst xy)) (V (fst xy) (snd xy)))
    (filter (fun xy => negb (V (fst xy) (snd xy) =? 0)) (cells x0 y0 x1 y1)) s.
Proof.
  intros V x0 y0 x1 y1 S body rest s Hx0 Hx1 Hy0 Hy1 HV.
  assert (forall vs i st, visits_ok i st vs ->
     mask_loop body ((fst st ++ [0; 0]) ++ rest) 0 s = ofold (fun s qv => body s (fst qv) (snd qv)) vs s) as D.
  { intros vs i st (A & B). rewrite <- app_assoc. rewrite B. destruct (ofold _ vs s); reflexivity. }
  assert (exists i, visits_ok i (final V x0 y0 x1 y1)
    (flat_map (fun y => row_visits V y (zrange x0 (Z.to_nat (x1 - x0 + 1)))) (zrange y0 (Z.to_nat (y1 - y0 + 1))))) as (i & W).
  { unfold final. destruct (Z_le_gt_dec y0 y1).
    - eexists. change (flat_map ?f ?l) with ([] ++ flat_map f l).
      apply rows_visits; auto; try lia. { intros; apply HV; lia. }
      rewrite TILE_val. rewrite Z.mul_comm. apply visits_empty. lia.
    - replace (Z.to_nat (y1 - y0 + 1)) with 0%nat by lia. cbn [zrange seq map fold_left flat_map].
      eexists. rewrite TILE_val. apply visits_empty. lia. }
  rewrite (D _ _ _ W). clear D W i.
  unfold cells. generalize (zrange y0 (Z.to_nat (y1 - y0 + 1))). intros l. revert s.
  induction l as [|y l IH]; intros s; [reflexivity|].
  cbn [flat_map]. rewrite filter_app, !ofold_app.
  assert (ofold (fun s qv => body s (fst qv) (snd qv)) (row_visits V y (zrange x0 (Z.to_nat (x1 - x0 + 1)))) s =
    ofold (fun s xy => body s (4 * (64 * snd xy + fst xy)) (V (fst xy) (snd xy)))
      (filter (fun xy => negb (V (fst xy) (snd xy) =? 0)) (map (fun x => (x, y)) (zrange x0 (Z.to_nat (x1 - x0 + 1))))) s) as ->.
  { unfold row_visits. generalize (zrange x0 (Z.to_nat (x1 - x0 + 1))). intros m. revert s.
    induction m as [|x m IHm]; intros s; [reflexivity|]. cbn [filter map fst snd].
    destruct (V x y =? 0); cbn [negb]; [apply IHm|]. cbn [map ofold fst snd].
    destruct (body s (4 * (64 * y + x)) (V x y)); cbn [obind]; auto. }
  destruct (ofold _ _ s); cbn [obind]; auto.
Qed.

(** ** Length of the encoding *)

Definition pend (st : list Z * Z) : Z := if snd st =? 0 then 0 else 1.

Lemma pend_01 : forall st, 0 <= pend st <= 1.
Proof. intros. unfold pend. destruct (snd st =? 0); lia. Qed.

(** any values: at most 3 words per 2 pixels *)
Definition cost (st : list Z * Z) : Z := 2 * plen st + 3 * pend st.

Lemma cost_penc : forall st v, 0 <= snd st -> cost (penc st v) <= cost st + 3.
Proof.
  intros st v H. unfold cost, penc, plen, pend. destruct (v =? 0); cbn [fst snd].
  - destruct (Z.eqb_spec (snd st) 0), (Z.eqb_spec (snd st + 1) 0); lia.
  - destruct (Z.eqb_spec (snd st) 0); cbn [fst snd Z.eqb]; rewrite app_length; cbn [length]; lia.
Qed.
Lemma cost_bump : forall st k, cost (bump st k) <= cost st + 3.
Proof. intros. unfold cost. rewrite bump_len. pose proof (pend_01 st). pose proof (pend_01 (bump st k)). lia. Qed.
Lemma penc_pos : forall l st, 0 <= snd st -> 0 <= snd (fold_left penc l st).
Proof. intros. pose proof (skip_bound l st H). lia. Qed.
Lemma cost_fold : forall l st, 0 <= snd st -> cost (fold_left penc l st) <= cost st + 3 * Z.of_nat (length l).
Proof.
  induction l; intros st H; cbn [fold_left length]; [lia|].
  assert (0 <= snd (penc st a)). { apply (penc_pos [a]). auto. }
  specialize (IHl (penc st a) H0). pose proof (cost_penc st a H). lia.
Qed.
Lemma cost_prow : forall V x0 x1 st y, 0 <= x0 -> x1 <= 63 -> 0 <= snd st ->
  cost (prow V x0 x1 st y) <= cost st + 3 * Z.max 0 (x1 - x0 + 1) + 6.
Proof.
  intros. unfold prow.
  pose proof (cost_bump (fold_left penc (row_vals V x0 x1 y) (bump st x0)) (TILE - Z.max x0 (x1 + 1))).
  pose proof (cost_fold (row_vals V x0 x1 y) (bump st x0) ltac:(cbn [bump snd]; lia)).
  pose proof (cost_bump st x0). unfold row_vals in *. rewrite map_length, zrange_length in *. lia.
Qed.
Lemma cost_rows : forall V x0 x1 l st, 0 <= x0 -> x1 <= 63 -> 0 <= snd st ->
  cost (fold_left (prow V x0 x1) l st) <= cost st + (3 * Z.max 0 (x1 - x0 + 1) + 6) * Z.of_nat (length l).
Proof.
  induction l; intros st H0 H1 H2; cbn [fold_left length]; [lia|].
  specialize (IHl (prow V x0 x1 st a) H0 H1 (prow_skip_pos V x0 x1 st a H0 H1 H2)).
  pose proof (cost_prow V x0 x1 st a H0 H1 H2). lia.
Qed.
Lemma final_len_any : forall V x0 y0 x1 y1, 0 <= x0 -> x1 <= 63 -> 0 <= y0 ->
  2 * plen (final V x0 y0 x1 y1) <= 3 + (3 * Z.max 0 (x1 - x0 + 1) + 6) * Z.max 0 (y1 - y0 + 1).
Proof.
  intros. unfold final.
  pose proof (cost_rows V x0 x1 (zrange y0 (Z.to_nat (y1 - y0 + 1))) ([], y0 * TILE) H H0 ltac:(rewrite TILE_val; cbn [snd]; lia)) as C.
  rewrite zrange_length in C. unfold cost in C.
  pose proof (pend_01 (fold_left (prow V x0 x1) (zrange y0 (Z.to_nat (y1 - y0 + 1))) ([], y0 * TILE))).
  pose proof (pend_01 ([], y0 * TILE)). unfold plen in *. cbn [fst length] in C. lia.
Qed.

(** rows without gaps *)
Definition no_gap (l : list Z) : Prop :=
  exists a nz b, l = repeat 0 a ++ nz ++ repeat 0 b /\ Forall (fun v => v <> 0) nz.

Lemma fold_zeros : forall n st, fold_left penc (repeat 0 n) st = (fst st, snd st + Z.of_nat n).
Proof.
  induction n; intros st; cbn [repeat fold_left].
  - destruct st; cbn [fst snd]. f_equal. lia.
  - rewrite IHn. cbn [penc Z.eqb fst snd]. f_equal. lia.
Qed.
Lemma fold_nz : forall nz buf, Forall (fun v => v <> 0) nz ->
  fold_left penc nz (buf, 0) = (buf ++ nz, 0).
Proof.
  induction nz; intros buf H; cbn [fold_left]. { now rewrite app_nil_r. }
  inversion H; subst. unfold penc at 2. destruct (Z.eqb_spec a 0); [tauto|]. cbn [fst snd Z.eqb].
  rewrite IHnz by auto. rewrite <- app_assoc. reflexivity.
Qed.

Lemma fold_nz_cons : forall v nz buf k, Forall (fun v => v <> 0) (v :: nz) ->
  fold_left penc (v :: nz) (buf, k) =
  ((if k =? 0 then buf else buf ++ [0; u16 (k * 4)]) ++ v :: nz, 0).
Proof.
  intros v nz buf k H. inversion H; subst. cbn [fold_left]. unfold penc at 2. cbn [fst snd].
  destruct (Z.eqb_spec v 0); [tauto|].
  destruct (k =? 0); rewrite fold_nz by auto; rewrite <- !app_assoc; reflexivity.
Qed.

Definition cost1 (st : list Z * Z) : Z := plen st + pend st.

Lemma row_cost1 : forall V x0 x1 st y, 0 <= x0 -> x1 <= 63 -> 0 <= snd st ->
  no_gap (row_vals V x0 x1 y) -> cost1 (prow V x0 x1 st y) <= cost1 st + 65.
Proof.
  intros V x0 x1 st y H0 H1 Hs (a & nz & b & E & F). unfold prow. rewrite E.
  assert (length (row_vals V x0 x1 y) = Z.to_nat (x1 - x0 + 1)) as L.
  { unfold row_vals. now rewrite map_length, zrange_length. }
  rewrite E, !app_length, !repeat_length in L.
  rewrite !fold_left_app, fold_zeros, fold_zeros. cbn [bump fst snd].
  set (k0 := snd st + x0 + Z.of_nat a).
  destruct nz as [|v nz].
  - cbn [fold_left fst snd]. unfold cost1, plen, pend. cbn [bump fst snd].
    destruct (_ =? 0), (snd st =? 0); lia.
  - rewrite fold_nz_cons by auto. cbn [fst snd]. rewrite TILE_val. cbn [length] in L.
    unfold cost1, plen, pend; cbn [bump fst snd]. rewrite app_length.
    destruct (Z.eqb_spec k0 0) as [K|K]; rewrite ?app_length; cbn [length];
      destruct (Z.eqb_spec (0 + Z.of_nat b + (64 - Z.max x0 (x1 + 1))) 0), (Z.eqb_spec (snd st) 0); lia.
Qed.

Lemma rows_cost1 : forall V x0 x1 l st, 0 <= x0 -> x1 <= 63 -> 0 <= snd st ->
  (forall y, In y l -> no_gap (row_vals V x0 x1 y)) ->
  cost1 (fold_left (prow V x0 x1) l st) <= cost1 st + 65 * Z.of_nat (length l).
Proof.
  induction l; intros st H0 H1 H2 G; cbn [fold_left length]; [lia|].
  specialize (IHl (prow V x0 x1 st a) H0 H1 (prow_skip_pos V x0 x1 st a H0 H1 H2)).
  pose proof (row_cost1 V x0 x1 st a H0 H1 H2 (G a ltac:(simpl; auto))).
  assert (forall y, In y l -> no_gap (row_vals V x0 x1 y)) by (intros; apply G; simpl; auto).
  specialize (IHl H3). lia.
Qed.

Lemma final_len_rows : forall V x0 y0 x1 y1, 0 <= x0 -> x1 <= 63 -> 0 <= y0 -> y1 <= 63 ->
  (forall y, y0 <= y <= y1 -> no_gap (row_vals V x0 x1 y)) ->
  plen (final V x0 y0 x1 y1) <= 1 + 65 * 64.
Proof.
  intros V x0 y0 x1 y1 H0 H1 H2 H3 G. unfold final.
  pose proof (rows_cost1 V x0 x1 (zrange y0 (Z.to_nat (y1 - y0 + 1))) ([], y0 * TILE) H0 H1 ltac:(rewrite TILE_val; cbn [snd]; lia)) as C.
  rewrite zrange_length in C. unfold cost1 in C.
  pose proof (pend_01 (fold_left (prow V x0 x1) (zrange y0 (Z.to_nat (y1 - y0 + 1))) ([], y0 * TILE))).
  pose proof (pend_01 ([], y0 * TILE)). unfold plen in *. cbn [fst length] in C.
  assert (forall y, In y (zrange y0 (Z.to_nat (y1 - y0 + 1))) -> no_gap (row_vals V x0 x1 y)).
  { intros y Hy. apply in_zrange in Hy. apply G. lia. }
  specialize (C H5). lia.
Qed.

(** every word fits 16 bits *)
Definition words_ok (l : list Z) : Prop := Forall (fun w => 0 <= w <= 65535) l.

Lemma u16_word : forall z, 0 <= u16 z <= 65535.
Proof. intros. unfold u16. pose proof (Z.mod_pos_bound z 65536). lia. Qed.

Lemma penc_words : forall l st, words_ok (fst st) -> Forall (fun v => 0 <= v <= 65535) l ->
  words_ok (fst (fold_left penc l st)).
Proof.
  induction l; intros st W F; cbn [fold_left]; auto. inversion F; subst. apply IHl; auto.
  unfold penc. destruct st as [b k]. cbn [fst snd] in *.
  destruct (a =? 0); cbn [fst]; auto.
  destruct (k =? 0); cbn [fst]; apply Forall_app; split; auto;
    repeat constructor; try lia; apply u16_word.
Qed.

Lemma final_words : forall V x0 y0 x1 y1,
  (forall i j, x0 <= i <= x1 -> y0 <= j <= y1 -> 0 <= V i j <= 65535) ->
  words_ok (fst (final V x0 y0 x1 y1) ++ [0; 0]).
Proof.
  intros V x0 y0 x1 y1 H. apply Forall_app. split; [|repeat constructor; lia].
  unfold final.
  assert (forall l st, words_ok (fst st) -> (forall j, In j l -> y0 <= j <= y1) ->
            words_ok (fst (fold_left (prow V x0 x1) l st))) as K.
  { induction l; intros st W I; cbn [fold_left]; auto. apply IHl; [|intros; apply I; simpl; auto].
    unfold prow. cbn [bump fst]. apply penc_words; [exact W|].
    unfold row_vals. apply Forall_forall. intros v Hv. apply in_map_iff in Hv. destruct Hv as (i & <- & Hi).
    apply in_zrange in Hi. apply H; [lia|]. apply I. simpl. auto. }
  apply K; [constructor|]. intros j Hj. apply in_zrange in Hj. lia.
Qed.

(** ** Stamping *)

Definition TILE_WORDS : Z := 16384.   (* 64 * 64 * 4 *)

Definition pixel_at (mem : list Z) (x y : Z) : pixel :=
  let w i := nth (Z.to_nat (4 * (64 * y + x) + i)) mem 0 in
  mkPx (w 0) (w 1) (w 2) (w 3).

Definition in_tile (x y : Z) : Prop := 0 <= x <= 63 /\ 0 <= y <= 63.

Lemma read_px_at : forall mem x y, Z.of_nat (length mem) = TILE_WORDS -> in_tile x y ->
  read_px mem (4 * (64 * y + x)) = Ok (pixel_at mem x y).
Proof.
  intros mem x y L (Hx & Hy). unfold read_px. rewrite L. unfold TILE_WORDS.
  destruct (Z.leb_spec 0 (4 * (64 * y + x))); [|lia].
  destruct (Z.leb_spec (4 * (64 * y + x) + 4) 16384); [|lia]. reflexivity.
Qed.

Lemma write_px_length : forall mem q p, length (write_px mem q p) = length mem.
Proof. intros. unfold write_px. now rewrite !upd_length. Qed.

Lemma write_px_same : forall mem x y p, Z.of_nat (length mem) = TILE_WORDS -> in_tile x y ->
  pixel_at (write_px mem (4 * (64 * y + x)) p) x y = p.
Proof.
  intros mem x y p L (Hx & Hy). unfold pixel_at, write_px. unfold TILE_WORDS in L.
  set (q := 4 * (64 * y + x)).
  destruct p as [r g b a]. cbn [pr pg pb pa].
  f_equal; repeat (first [rewrite nth_upd_eq by (rewrite ?upd_length; lia) | rewrite nth_upd_neq by lia]); reflexivity.
Qed.

Lemma write_px_other : forall mem x y x' y' p, in_tile x y -> in_tile x' y' -> (x, y) <> (x', y') ->
  pixel_at (write_px mem (4 * (64 * y + x)) p) x' y' = pixel_at mem x' y'.
Proof.
  intros mem x y x' y' p (Hx & Hy) (Hx' & Hy') N. unfold pixel_at, write_px.
  assert (64 * y + x <> 64 * y' + x') by (intros E; apply N; f_equal; lia).
  f_equal; repeat rewrite nth_upd_neq by lia; reflexivity.
Qed.

Definition stamp_body (blend : Z -> pixel -> outcome pixel) (mem : list Z) (q m : Z) : outcome (list Z) :=
  let* p := read_px mem q in
  let* p' := blend m p in
  Ok (write_px mem q p').

Lemma stamp_cells_inv : forall blend (V : Z -> Z -> Z) l mem mem',
  NoDup l -> (forall xy, In xy l -> in_tile (fst xy) (snd xy)) -> Z.of_nat (length mem) = TILE_WORDS ->
  ofold (fun s xy => stamp_body blend s (4 * (64 * snd xy + fst xy)) (V (fst xy) (snd xy))) l mem = Ok mem' ->
  Z.of_nat (length mem') = TILE_WORDS /\
  (forall x y, in_tile x y -> ~ In (x, y) l -> pixel_at mem' x y = pixel_at mem x y) /\
  (forall x y, In (x, y) l -> blend (V x y) (pixel_at mem x y) = Ok (pixel_at mem' x y)).
Proof.
  induction l as [|(x, y) l IH]; intros mem mem' ND T L E.
  - inversion E; subst. split; auto. split; auto. intros ? ? [].
  - inversion ND; subst. cbn [ofold fst snd] in E.
    apply obind_ok in E. destruct E as (m1 & E1 & E2).
    assert (Txy : in_tile x y) by (apply (T (x, y)); simpl; auto).
    unfold stamp_body in E1. rewrite read_px_at in E1 by auto. cbn [obind] in E1.
    apply obind_ok in E1. destruct E1 as (p' & B & E1). inversion E1; subst m1.
    destruct (IH (write_px mem (4 * (64 * y + x)) p') mem') as (L' & U & D); auto.
    { intros; apply T; simpl; auto. }
    { now rewrite write_px_length. }
    split; [auto|]. split.
    + intros x' y' T' N. rewrite U by (auto; intros C; apply N; simpl; auto).
      apply write_px_other; auto. intros C. apply N. simpl; auto.
    + intros x' y' [C|C].
      * inversion C; subst. rewrite B. f_equal. symmetry. rewrite U by auto. apply write_px_same; auto.
      * rewrite <- (D x' y' C). f_equal. symmetry. apply write_px_other; auto.
        { apply (T (x', y')); simpl; auto. }
        { intros X. inversion X; subst. tauto. }
Qed.

Lemma stamp_cells_ok : forall blend (V : Z -> Z -> Z) l mem,
  NoDup l -> (forall xy, In xy l -> in_tile (fst xy) (snd xy)) -> Z.of_nat (length mem) = TILE_WORDS ->
  (forall x y, In (x, y) l -> exists p', blend (V x y) (pixel_at mem x y) = Ok p') ->
  exists mem', ofold (fun s xy => stamp_body blend s (4 * (64 * snd xy + fst xy)) (V (fst xy) (snd xy))) l mem = Ok mem'.
Proof.
  induction l as [|(x, y) l IH]; intros mem ND T L B.
  - eexists; reflexivity.
  - inversion ND; subst. cbn [ofold fst snd].
    assert (Txy : in_tile x y) by (apply (T (x, y)); simpl; auto).
    unfold stamp_body at 1. rewrite read_px_at by auto. cbn [obind].
    destruct (B x y) as (p' & ->); [simpl; auto|]. cbn [obind].
    apply IH; auto.
    { intros; apply T; simpl; auto. }
    { now rewrite write_px_length. }
    intros x' y' C. rewrite write_px_other; auto.
    + apply B; simpl; auto.
    + apply (T (x', y')); simpl; auto.
    + intros X. inversion X; subst. tauto.
Qed.

Lemma in_cells : forall x0 y0 x1 y1 x y, In (x, y) (cells x0 y0 x1 y1) <-> x0 <= x <= x1 /\ y0 <= y <= y1.
Proof.
  intros. unfold cells. rewrite in_flat_map. split.
  - intros (y' & Hy & H). apply in_map_iff in H. destruct H as (x' & E & Hx). inversion E; subst.
    apply in_zrange in Hx, Hy. lia.
  - intros (Hx & Hy). exists y. split; [apply in_zrange; lia|]. apply in_map_iff. exists x. split; auto.
    apply in_zrange. lia.
Qed.

Lemma NoDup_app_intro : forall A (l1 l2 : list A), NoDup l1 -> NoDup l2 ->
  (forall a, In a l1 -> ~ In a l2) -> NoDup (l1 ++ l2).
Proof.
  induction l1; intros l2 N1 N2 D; simpl; auto. inversion N1; subst. constructor.
  - rewrite in_app_iff. intros [C|C]; [tauto|]. apply (D a); simpl; auto.
  - apply IHl1; auto. intros b Hb. apply D; simpl; auto.
Qed.

Lemma NoDup_flat_map_pairs : forall (xs ys : list Z), NoDup xs -> NoDup ys ->
  NoDup (flat_map (fun y => map (fun x => (x, y)) xs) ys).
Proof.
  induction ys; intros NX NY; simpl; [constructor|]. inversion NY; subst.
  apply NoDup_app_intro.
  - apply FinFun.Injective_map_NoDup; auto. intros u v E; congruence.
  - auto.
  - intros (x, y) H C. apply in_map_iff in H. destruct H as (x' & E & Hx). inversion E; subst.
    apply in_flat_map in C. destruct C as (y' & Hy & C). apply in_map_iff in C.
    destruct C as (x'' & E2 & _). inversion E2; subst. tauto.
Qed.

Lemma NoDup_cells : forall x0 y0 x1 y1, NoDup (cells x0 y0 x1 y1).
Proof. intros. apply NoDup_flat_map_pairs; apply NoDup_zrange. Qed.

(** the value function of a mask: zero outside the box *)
Definition box_vals (opa : Z -> Z -> outcome Z) (x0 y0 x1 y1 : Z) (x y : Z) : Z :=
  if (x0 <=? x) && (x <=? x1) && (y0 <=? y) && (y <=? y1)
  then match opa x y with Ok v => v | _ => 0 end else 0.

Lemma box_vals_in : forall opa x0 y0 x1 y1 x y, x0 <= x <= x1 -> y0 <= y <= y1 ->
  box_vals opa x0 y0 x1 y1 x y = match opa x y with Ok v => v | _ => 0 end.
Proof.
  intros. unfold box_vals. destruct (Z.leb_spec x0 x); [|lia]. destruct (Z.leb_spec x x1); [|lia].
  destruct (Z.leb_spec y0 y); [|lia]. destruct (Z.leb_spec y y1); [|lia]. reflexivity.
Qed.
Lemma box_vals_out : forall opa x0 y0 x1 y1 x y, ~ (x0 <= x <= x1 /\ y0 <= y <= y1) ->
  box_vals opa x0 y0 x1 y1 x y = 0.
Proof.
  intros. unfold box_vals. destruct (Z.leb_spec x0 x); simpl; auto. destruct (Z.leb_spec x x1); simpl; auto.
  destruct (Z.leb_spec y0 y); simpl; auto. destruct (Z.leb_spec y y1); simpl; auto. lia.
Qed.

(** encoding fails unless every value is defined *)
Lemma enc_fold_vals : forall (opa : Z -> Z -> outcome Z) yp l st st',
  ofold (fun st xp => let* v := opa xp yp in enc_pixel st v) l st = Ok st' ->
  forall x, In x l -> exists v, opa x yp = Ok v.
Proof.
  induction l; intros st st' E x H; [destruct H|]. cbn [ofold] in E.
  apply obind_ok in E. destruct E as (s & E1 & E2). apply obind_ok in E1. destruct E1 as (v & Ev & _).
  destruct H as [<-|H]; [eauto|]. eapply IHl; eauto.
Qed.
Lemma enc_row_vals : forall opa x0 x1 st y st', enc_row opa x0 x1 st y = Ok st' ->
  forall x, x0 <= x <= x1 -> exists v, opa x y = Ok v.
Proof.
  intros opa x0 x1 st y st' H x Hx. unfold enc_row in H.
  apply obind_ok in H. destruct H as (s & _ & H). apply obind_ok in H. destruct H as ((b & k) & E & _).
  eapply enc_fold_vals; eauto. apply in_zrange. lia.
Qed.
Lemma encode_vals : forall opa x0 y0 x1 y1 buf, encode opa x0 y0 x1 y1 = Ok buf ->
  forall x y, x0 <= x <= x1 -> y0 <= y <= y1 -> exists v, opa x y = Ok v.
Proof.
  intros opa x0 y0 x1 y1 buf H x y Hx Hy. unfold encode in H.
  apply obind_ok in H. destruct H as (s & _ & H). apply obind_ok in H. destruct H as ((b & k) & E & _).
  assert (In y (zrange y0 (Z.to_nat (y1 - y0 + 1)))) as I by (apply in_zrange; lia).
  revert E I. generalize (zrange y0 (Z.to_nat (y1 - y0 + 1))). generalize ([]:list Z, s).
  intros st l. revert st. induction l; intros st E I; [destruct I|]. cbn [ofold] in E.
  apply obind_ok in E. destruct E as (s1 & E1 & E2). destruct I as [->|I].
  - eapply enc_row_vals; eauto.
  - eapply IHl; eauto.
Qed.

Lemma stamp_encoded : forall opa x0 y0 x1 y1 buf blend mem rest,
  0 <= x0 -> x1 <= 63 -> 0 <= y0 -> y1 <= 63 ->
  (forall x y v, opa x y = Ok v -> 0 <= v < 65536) ->
  encode opa x0 y0 x1 y1 = Ok buf -> Z.of_nat (length mem) = TILE_WORDS ->
  let V := box_vals opa x0 y0 x1 y1 in
  (forall mem', stamp blend (buf ++ rest) mem = Ok mem' ->
     Z.of_nat (length mem') = TILE_WORDS /\
     forall x y, in_tile x y ->
       if V x y =? 0 then pixel_at mem' x y = pixel_at mem x y
       else blend (V x y) (pixel_at mem x y) = Ok (pixel_at mem' x y)) /\
  ((forall x y, in_tile x y -> V x y <> 0 -> exists p', blend (V x y) (pixel_at mem x y) = Ok p') ->
   exists mem', stamp blend (buf ++ rest) mem = Ok mem').
Proof.
  intros opa x0 y0 x1 y1 buf blend mem rest Hx0 Hx1 Hy0 Hy1 HR HE L V.
  assert (Vals : forall x y, x0 <= x <= x1 -> y0 <= y <= y1 -> opa x y = Ok (V x y)).
  { intros x y Hx Hy. unfold V. rewrite box_vals_in by auto.
    destruct (encode_vals _ _ _ _ _ _ HE x y Hx Hy) as (v & ->). reflexivity. }
  destruct (encode_inv opa V x0 y0 x1 y1 buf Vals HE) as (-> & _).
  unfold stamp. change (fun mem q m => let* p := read_px mem q in let* p' := blend m p in Ok (write_px mem q p')) with (stamp_body blend).
  rewrite decode_final; auto.
  2:{ intros x y Hx Hy. apply (HR x y). apply Vals; auto. }
  set (l := filter _ _).
  assert (ND : NoDup l) by (apply NoDup_filter, NoDup_cells).
  assert (I : forall x y, In (x, y) l <-> (x0 <= x <= x1 /\ y0 <= y <= y1) /\ V x y <> 0).
  { intros x y. unfold l. rewrite filter_In, in_cells. cbn [fst snd].
    destruct (Z.eqb_spec (V x y) 0); simpl; intuition congruence. }
  assert (T : forall xy, In xy l -> in_tile (fst xy) (snd xy)).
  { intros (x, y) H. apply I in H. unfold in_tile. cbn [fst snd]. lia. }
  split.
  - intros mem' E. destruct (stamp_cells_inv blend V l mem mem' ND T L E) as (L' & U & D).
    split; [auto|]. intros x y Txy. destruct (Z.eqb_spec (V x y) 0) as [Z0|Z0].
    + apply U; auto. rewrite I. tauto.
    + apply D. rewrite I. split; auto.
      destruct (Z_le_gt_dec x0 x); [destruct (Z_le_gt_dec x x1); [destruct (Z_le_gt_dec y0 y); [destruct (Z_le_gt_dec y y1)|]|]|];
        try (exfalso; apply Z0; apply box_vals_out; lia). lia.
  - intros B. apply stamp_cells_ok; auto. intros x y H. apply B.
    + apply (T (x, y)); auto.
    + apply I in H. tauto.
Qed.
