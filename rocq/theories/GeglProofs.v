(** Lemmas about the model of the GEGL backend. *)
From Coq Require Import ZifyBool.
From Verif Require Import Base Blend Gegl.

Lemma int_ok : forall z, INT_MIN <= z <= INT_MAX -> int_val z = Ok z.
Proof.
  intros z H. unfold int_val, in_int.
  replace ((INT_MIN <=? z) && (z <=? INT_MAX)) with true by lia. reflexivity.
Qed.

(** Tiles whose pixels, and whose common bounding box, have C int coordinates. *)
Definition reach : Z := 16777216.
Definition near (j : job) : Prop :=
  - reach < j_tx j < reach /\ - reach < j_ty j < reach.

Definition sane (r : grect) : Prop :=
  (gw r = 0 /\ gh r = 0) \/
  (- 1073741824 < gx r /\ 0 < gw r /\ gx r + gw r <= 1073741824 /\
   - 1073741824 < gy r /\ 0 < gh r /\ gy r + gh r <= 1073741824).

Definition tile_of (j : job) : grect := mkG (j_tx j * TILE) (j_ty j * TILE) TILE TILE.

Lemma tile_sane : forall j, near j -> sane (tile_of j).
Proof. intros j [[A B] [C D]]. right. unfold reach in *; simpl; unfold TILE; lia. Qed.

Lemma box_ok : forall a j, sane a -> near j ->
  exists r, bounding_box a (tile_of j) = Ok r /\ sane r /\
    (forall x y, inside a x y = true -> inside r x y = true) /\
    (forall x y, inside (tile_of j) x y = true -> inside r x y = true).
Proof.
  intros a j Sa N. pose proof (tile_sane j N) as St. unfold bounding_box.
  assert (Ft : negb (gw (tile_of j) =? 0) && negb (gh (tile_of j) =? 0) = true) by reflexivity.
  rewrite Ft.
  destruct Sa as [[W H] | Sa].
  - replace (negb (gw a =? 0) && negb (gh a =? 0)) with false by lia.
    exists (tile_of j). split; [reflexivity |]. split; [exact St |]. split.
    + intros x y I. unfold inside in I. exfalso. lia.
    + auto.
  - replace (negb (gw a =? 0) && negb (gh a =? 0)) with true by lia.
    destruct St as [[St _] | St]; [discriminate St |].
    remember (tile_of j) as t. clear Heqt Ft.
    unfold INT_MIN, INT_MAX in *.
    repeat (rewrite int_ok by (unfold INT_MIN, INT_MAX; lia); cbn [obind]).
    eexists. split; [reflexivity |]. split.
    + right. simpl. lia.
    + split; intros x y I; unfold inside in *; simpl; lia.
Qed.

Lemma in_tile : forall tx ty x y,
  inside (mkG (tx * TILE) (ty * TILE) TILE TILE) x y = (x / 64 =? tx) && (y / 64 =? ty).
Proof.
  intros. unfold inside, TILE. simpl.
  pose proof (Z.div_mod x 64 ltac:(lia)). pose proof (Z.mod_pos_bound x 64 ltac:(lia)).
  pose proof (Z.div_mod y 64 ltac:(lia)). pose proof (Z.mod_pos_bound y 64 ltac:(lia)). lia.
Qed.

Section One.
Variable V : Type.
Variable vblank : V.
Variable to15 : V -> pixel.
Variable from15 : pixel -> V.
Notation gsurf := (gsurf V).
Notation gbuf := (gbuf V).
Notation job_step := (job_step V vblank to15 from15).
Notation seen := (seen V vblank).

(** The surface's own bounding box covers the buffer's extent, and there is
    nothing beyond the extent. *)
Definition tidy (s : gsurf) : Prop :=
  sane (s_rect V s) /\
  (forall x y, inside (b_extent V (s_buf V s)) x y = true -> inside (s_rect V s) x y = true) /\
  (forall x y, inside (b_extent V (s_buf V s)) x y = false -> b_data V (s_buf V s) x y = vblank).

(** A caller's work depends on the tile's contents only. *)
Definition local_paint (j : job) : Prop :=
  forall p q, (forall i k, 0 <= i < 64 -> 0 <= k < 64 -> p i k = q i k) ->
  forall i k, 0 <= i < 64 -> 0 <= k < 64 -> j_paint j p i k = j_paint j q i k.

(** Starting a writing request. *)
Lemma begin_ok : forall s j, tidy s -> near j -> j_readonly j = false ->
  (b_native V (s_buf V s) = true -> b_aligned V (s_buf V s) = true) ->
  exists r, sane r /\
    (forall x y, inside (b_extent V (s_buf V s)) x y = true -> inside r x y = true) /\
    (forall x y, inside (tile_of j) x y = true -> inside r x y = true) /\
    let s' := mkS V r (set_extent V (s_buf V s) r) in
    exists s1 s2 ph1 ph2 ph3,
    job_step s j Fresh = Ok (s, ph1) /\
    job_step s j ph1 = Ok (s1, ph2) /\
    job_step s1 j ph2 = Ok (s2, ph3) /\
    job_step s2 j ph3 =
      Ok (s', Held (j_paint j (get V vblank to15 (s_buf V s') (j_tx j * TILE) (j_ty j * TILE)))) /\
    tidy s' /\ (forall x y, seen (s_buf V s') x y = seen (s_buf V s) x y).
Proof.
  intros s j (S1 & S2 & S3) N RO AL.
  destruct (box_ok (s_rect V s) j S1 N) as (r & B & Sr & Ca & Ct).
  exists r. split; [exact Sr |]. split; [auto |]. split; [exact Ct |].
  intro s'.
  assert (X1 : int_val (j_tx j * TILE) = Ok (j_tx j * TILE))
    by (apply int_ok; destruct N as [[? ?] ?]; unfold reach, TILE, INT_MIN, INT_MAX in *; lia).
  assert (Y1 : int_val (j_ty j * TILE) = Ok (j_ty j * TILE))
    by (apply int_ok; destruct N as [_ [? ?]]; unfold reach, TILE, INT_MIN, INT_MAX in *; lia).
  exists (mkS V r (s_buf V s)), s', (Boxed r), Kept, Grown.
  unfold Gegl.job_step. rewrite X1, Y1. cbn [obind]. rewrite RO.
  unfold tile_of in B. rewrite B. cbn [obind].
  split; [reflexivity |]. split; [reflexivity |]. split; [reflexivity |]. split.
  - subst s'. simpl.
    destruct (b_native V (s_buf V s)) eqn:NA; simpl; [rewrite AL by reflexivity |]; reflexivity.
  - split.
    + split; [exact Sr |]. split; [intros x y I; exact I |].
      intros x y I. simpl in *. apply S3.
      destruct (inside (b_extent V (s_buf V s)) x y) eqn:E; [| reflexivity].
      exfalso. rewrite (Ca x y (S2 x y E)) in I. discriminate I.
    + intros x y. unfold Gegl.seen. simpl.
      destruct (inside (b_extent V (s_buf V s)) x y) eqn:E.
      * rewrite (Ca x y (S2 x y E)). reflexivity.
      * rewrite (S3 x y E). destruct (inside r x y); reflexivity.
Qed.

(** Ending a writing request. *)
Lemma end_ok : forall s j p, tidy s -> near j -> j_readonly j = false ->
  (forall x y, inside (tile_of j) x y = true -> inside (b_extent V (s_buf V s)) x y = true) ->
  let s' := mkS V (s_rect V s) (put V from15 (s_buf V s) (j_tx j * TILE) (j_ty j * TILE) p) in
  job_step s j (Held p) = Ok (s', Over) /\ tidy s' /\
  forall x y, seen (s_buf V s') x y =
    if (x / 64 =? j_tx j) && (y / 64 =? j_ty j)
    then from15 (p (x mod 64) (y mod 64)) else seen (s_buf V s) x y.
Proof.
  intros s j p (S1 & S2 & S3) N RO C s'.
  assert (X1 : int_val (j_tx j * TILE) = Ok (j_tx j * TILE))
    by (apply int_ok; destruct N as [[? ?] ?]; unfold reach, TILE, INT_MIN, INT_MAX in *; lia).
  assert (Y1 : int_val (j_ty j * TILE) = Ok (j_ty j * TILE))
    by (apply int_ok; destruct N as [_ [? ?]]; unfold reach, TILE, INT_MIN, INT_MAX in *; lia).
  split; [| split].
  - unfold Gegl.job_step. rewrite X1, Y1. cbn [obind]. rewrite RO, andb_false_r. reflexivity.
  - split; [exact S1 |]. split; [exact S2 |].
    intros x y I. simpl in *. rewrite I, andb_false_r. apply S3. exact I.
  - intros x y. unfold Gegl.seen. simpl. rewrite in_tile.
    destruct ((x / 64 =? j_tx j) && (y / 64 =? j_ty j)) eqn:T; simpl.
    + rewrite C by (unfold tile_of; rewrite in_tile; exact T).
      f_equal. apply andb_true_iff in T. destruct T as [Tx Ty].
      apply Z.eqb_eq in Tx, Ty. unfold TILE.
      pose proof (Z.div_mod x 64 ltac:(lia)). pose proof (Z.div_mod y 64 ltac:(lia)).
      f_equal; lia.
    + reflexivity.
Qed.

(** A request for reading only, on a native buffer. *)
Lemma read_ok : forall s j, near j -> j_readonly j = true ->
  b_native V (s_buf V s) = true -> one_job V vblank to15 from15 s j = Ok s.
Proof.
  intros s j N RO NA.
  assert (X1 : int_val (j_tx j * TILE) = Ok (j_tx j * TILE))
    by (apply int_ok; destruct N as [[? ?] ?]; unfold reach, TILE, INT_MIN, INT_MAX in *; lia).
  assert (Y1 : int_val (j_ty j * TILE) = Ok (j_ty j * TILE))
    by (apply int_ok; destruct N as [_ [? ?]]; unfold reach, TILE, INT_MIN, INT_MAX in *; lia).
  unfold one_job. cbn [seq ofold fst snd].
  unfold Gegl.job_step. rewrite X1, Y1. cbn [obind fst snd]. rewrite RO.
  cbn [obind fst snd]. rewrite NA. cbn [andb].
  destruct (b_aligned V (s_buf V s)); cbn [negb obind fst snd]; rewrite ?NA, ?RO; reflexivity.
Qed.

(** A whole writing request by itself. *)
Lemma write_ok : forall s j, tidy s -> near j -> j_readonly j = false -> local_paint j ->
  (b_native V (s_buf V s) = true -> b_aligned V (s_buf V s) = true) ->
  exists s', one_job V vblank to15 from15 s j = Ok s' /\ tidy s' /\
    b_native V (s_buf V s') = b_native V (s_buf V s) /\
    b_aligned V (s_buf V s') = b_aligned V (s_buf V s) /\
    forall x y, seen (s_buf V s') x y =
      if (x / 64 =? j_tx j) && (y / 64 =? j_ty j)
      then from15 (j_paint j (fun i k => to15 (seen (s_buf V s) (64 * j_tx j + i) (64 * j_ty j + k)))
                     (x mod 64) (y mod 64))
      else seen (s_buf V s) x y.
Proof.
  intros s j T N RO LP AL.
  destruct (begin_ok s j T N RO AL) as (r & Sr & Ca & Ct & s1 & s2 & p1 & p2 & p3 & E1 & E2 & E3 & E4 & T' & Sn).
  set (s3 := mkS V r (set_extent V (s_buf V s) r)) in *.
  set (p := j_paint j (get V vblank to15 (s_buf V s3) (j_tx j * TILE) (j_ty j * TILE))) in *.
  destruct (end_ok s3 j p T' N RO Ct) as (E5 & T5 & S5).
  eexists. split.
  - unfold one_job. cbn [seq ofold fst snd].
    rewrite E1. cbn [obind fst snd]. rewrite E2. cbn [obind fst snd].
    rewrite E3. cbn [obind fst snd]. rewrite E4. cbn [obind fst snd].
    rewrite E5. cbn [obind]. reflexivity.
  - split; [exact T5 |]. split; [reflexivity |]. split; [reflexivity |].
    intros x y. rewrite S5.
    destruct ((x / 64 =? j_tx j) && (y / 64 =? j_ty j)); [| apply Sn].
    f_equal. subst p. apply LP.
    + intros i k _ _. unfold get. rewrite Sn. unfold TILE. f_equal. f_equal; lia.
    + apply Z.mod_pos_bound. lia.
    + apply Z.mod_pos_bound. lia.
Qed.

End One.

(** ** Requests of several threads *)

(** What a schedule is made of when no two requests are started at the same
    time: the whole of tile_request_start for a writing request, and ending
    the request. *)
Inductive turn := Begin (k : nat) | Finish (k : nat).

Definition steps_of (t : turn) : list nat :=
  match t with Begin k => [k; k; k; k] | Finish k => [k] end.

Definition schedule_of (l : list turn) : list nat := flat_map steps_of l.

Section Many.
Variable V : Type.
Variable vblank : V.
Variable to15 : V -> pixel.
Variable from15 : pixel -> V.
Notation gsurf := (gsurf V).
Notation seen := (seen V vblank).
Notation job_step := (job_step V vblank to15 from15).
Notation sched_step := (sched_step V vblank to15 from15).
Notation tidy := (tidy V vblank).

(** The picture at the beginning. *)
Variable pic : Z -> Z -> V.

Definition result (j : job) : patch :=
  j_paint j (fun i k => to15 (pic (64 * j_tx j + i) (64 * j_ty j + k))).

Definition covered (s : gsurf) (j : job) : Prop :=
  forall x y, inside (tile_of j) x y = true -> inside (b_extent V (s_buf V s)) x y = true.

Definition phase_ok (s : gsurf) (jp : job * phase) : Prop :=
  match snd jp with
  | Fresh => True
  | Held p => covered s (fst jp) /\
              forall i k, 0 <= i < 64 -> 0 <= k < 64 -> p i k = result (fst jp) i k
  | Over => True
  | _ => False
  end.

Definition at_tile (x y : Z) (j : job) : Prop := x / 64 = j_tx j /\ y / 64 = j_ty j.

Record good (s : gsurf) (js : jobs) : Prop := {
  g_tidy : tidy s;
  g_al : b_native V (s_buf V s) = true -> b_aligned V (s_buf V s) = true;
  g_ph : Forall (phase_ok s) js;
  g_done : forall j x y, In (j, Over) js -> at_tile x y j ->
    seen (s_buf V s) x y = from15 (result j (x mod 64) (y mod 64));
  g_keep : forall x y, (forall j, In (j, Over) js -> ~ at_tile x y j) ->
    seen (s_buf V s) x y = pic x y
}.

Definition fine (j : job) : Prop := near j /\ j_readonly j = false /\ local_paint j.
Definition key (j : job) : Z * Z := (j_tx j, j_ty j).

Lemma nth_upd_same : forall A (l : list A) k a b,
  nth_error l k = Some a -> nth_error (upd l k b) k = Some b.
Proof. induction l; destruct k; simpl; intros; try discriminate; auto. eapply IHl; eauto. Qed.

Lemma nth_upd_other : forall A (l : list A) i k b,
  i <> k -> nth_error (upd l k b) i = nth_error l i.
Proof. induction l; destruct i, k; simpl; intros b NE; auto; contradiction. Qed.

Lemma upd_upd : forall A (l : list A) k a b, upd (upd l k a) k b = upd l k b.
Proof. induction l; destruct k; simpl; intros; auto. f_equal. apply IHl. Qed.

Lemma upd_self : forall A (l : list A) k a, nth_error l k = Some a -> upd l k a = l.
Proof. induction l; destruct k; simpl; intros; try discriminate; [congruence |]. f_equal. auto. Qed.

Lemma in_upd : forall A (l : list A) k (a b c : A), nth_error l k = Some a ->
  In c (upd l k b) -> c = b \/ (exists m, m <> k /\ nth_error l m = Some c).
Proof.
  induction l; destruct k; simpl; intros x b c E I; try discriminate.
  - destruct I as [I | I]; [left; auto |]. right.
    apply In_nth_error in I. destruct I as [m I]. exists (S m). split; auto.
  - destruct I as [I | I].
    + right. exists O. split; [discriminate | simpl; congruence].
    + destruct (IHl _ _ _ _ E I) as [? | (m & ? & ?)]; [auto |].
      right. exists (S m). split; [congruence | auto].
Qed.

Lemma in_upd_new : forall A (l : list A) k (a b : A), nth_error l k = Some a -> In b (upd l k b).
Proof. intros. eapply nth_error_In. eapply nth_upd_same; eauto. Qed.

Lemma in_upd_old : forall A (l : list A) k (a b c : A), nth_error l k = Some a ->
  In c l -> c = a \/ In c (upd l k b).
Proof.
  induction l; destruct k; simpl; intros x b c E I; try discriminate.
  - destruct I as [I | I]; [left; congruence | right; auto].
  - destruct I as [I | I]; [right; auto |].
    destruct (IHl _ _ b _ E I); auto.
Qed.

Lemma forall_upd : forall A (P : A -> Prop) (l : list A) k b,
  Forall P l -> P b -> Forall P (upd l k b).
Proof.
  induction l; destruct k; simpl; intros b F B; auto; inversion F; subst; constructor; auto.
Qed.

Lemma map_fst_upd : forall (l : jobs) k j ph ph',
  nth_error l k = Some (j, ph) -> map fst (upd l k (j, ph')) = map fst l.
Proof.
  induction l; destruct k; simpl; intros j ph ph' E; try discriminate.
  - inversion E; subst. reflexivity.
  - f_equal. eapply IHl; eauto.
Qed.

Lemma other_tile : forall (l : jobs) k m j ph j' ph' x y,
  NoDup (map key (map fst l)) -> nth_error l k = Some (j, ph) -> nth_error l m = Some (j', ph') ->
  m <> k -> at_tile x y j -> at_tile x y j' -> False.
Proof.
  intros l k m j ph j' ph' x y ND E E' NE [A B] [C D].
  apply NE. rewrite NoDup_nth_error in ND. apply ND.
  - rewrite !map_length. apply nth_error_Some. congruence.
  - rewrite !nth_error_map, E, E'. simpl. f_equal. unfold key. congruence.
Qed.

(** No job that is over paints the tile of a job that is not. *)
Lemma still_there : forall s js k j ph, good s js -> NoDup (map key (map fst js)) ->
  nth_error js k = Some (j, ph) -> ph <> Over ->
  forall i m, 0 <= i < 64 -> 0 <= m < 64 ->
  seen (s_buf V s) (64 * j_tx j + i) (64 * j_ty j + m) = pic (64 * j_tx j + i) (64 * j_ty j + m).
Proof.
  intros s js k j ph G ND E NO i m Hi Hm. apply (g_keep s js G).
  intros j' I AT. apply In_nth_error in I. destruct I as [k' I].
  assert (NK : k' <> k) by (intro; subst; rewrite E in I; inversion I; subst; apply NO; reflexivity).
  refine (other_tile js k k' j ph j' Over _ _ ND E I NK _ AT).
  split; [rewrite Z.mul_comm, Z.div_add_l by lia; rewrite Z.div_small by lia; lia
         | rewrite Z.mul_comm, Z.div_add_l by lia; rewrite Z.div_small by lia; lia].
Qed.

Lemma sched_cons : forall k l s js j ph s' ph', nth_error js k = Some (j, ph) ->
  job_step s j ph = Ok (s', ph') ->
  ofold sched_step (k :: l) (s, js) = ofold sched_step l (s', upd js k (j, ph')).
Proof. intros. simpl. rewrite H, H0. reflexivity. Qed.

Lemma over_steps : forall n k s js j, nth_error js k = Some (j, Over) -> near j ->
  ofold sched_step (repeat k n) (s, js) = Ok (s, js).
Proof.
  induction n; intros k s js j E N; [reflexivity |].
  simpl repeat.
  assert (ST : job_step s j Over = Ok (s, Over)).
  { unfold Gegl.job_step.
    rewrite !int_ok by (destruct N as [[? ?] [? ?]]; unfold reach, TILE, INT_MIN, INT_MAX in *; lia).
    reflexivity. }
  rewrite (sched_cons _ _ _ _ _ _ _ _ E ST), (upd_self _ _ _ _ E). eapply IHn; eauto.
Qed.

Lemma good_finish : forall s js k j p, good s js -> NoDup (map key (map fst js)) ->
  nth_error js k = Some (j, Held p) -> fine j ->
  exists s', job_step s j (Held p) = Ok (s', Over) /\ good s' (upd js k (j, Over)).
Proof.
  intros s js k j p G ND E (N & RO & LP).
  assert (PO : phase_ok s (j, Held p)).
  { pose proof (g_ph s js G) as F. rewrite Forall_forall in F. apply F. eapply nth_error_In; eauto. }
  destruct PO as [C P]. simpl in C, P.
  destruct (end_ok V vblank to15 from15 s j p (g_tidy s js G) N RO C) as (E1 & T1 & S1).
  eexists. split; [exact E1 |].
  constructor.
  - exact T1.
  - exact (g_al s js G).
  - apply forall_upd; [| exact I].
    eapply Forall_impl; [| exact (g_ph s js G)].
    intros [j' ph'] H. destruct ph'; auto.
  - intros j' x y I AT. rewrite S1.
    destruct (in_upd _ _ _ _ _ _ E I) as [Q | (m & NM & Q)].
    + inversion Q; subst j'. destruct AT as [A B].
      rewrite A, B, !Z.eqb_refl. simpl. f_equal. apply P; apply Z.mod_pos_bound; lia.
    + replace ((x / 64 =? j_tx j) && (y / 64 =? j_ty j)) with false.
      * apply (g_done s js G); [eapply nth_error_In; eauto | exact AT].
      * symmetry. apply not_true_is_false. intro Q2. apply andb_true_iff in Q2.
        destruct Q2 as [Q2 Q3]. apply Z.eqb_eq in Q2, Q3.
        exact (other_tile js k m j (Held p) j' Over x y ND E Q NM (conj Q2 Q3) AT).
  - intros x y H. rewrite S1.
    replace ((x / 64 =? j_tx j) && (y / 64 =? j_ty j)) with false.
    + apply (g_keep s js G). intros j' I. apply H.
      destruct (in_upd_old _ _ _ _ (j, Over) _ E I) as [Q | Q]; [discriminate Q | exact Q].
    + symmetry. apply not_true_is_false. intro Q2. apply andb_true_iff in Q2.
      destruct Q2 as [Q2 Q3]. apply Z.eqb_eq in Q2, Q3.
      apply (H j); [eapply in_upd_new; eauto | split; auto].
Qed.

Lemma good_begin : forall s js k j, good s js -> NoDup (map key (map fst js)) ->
  nth_error js k = Some (j, Fresh) -> fine j ->
  exists s' p, ofold sched_step [k; k; k; k] (s, js) = Ok (s', upd js k (j, Held p)) /\
               good s' (upd js k (j, Held p)).
Proof.
  intros s js k j G ND E (N & RO & LP).
  destruct (begin_ok V vblank to15 from15 s j (g_tidy s js G) N RO (g_al s js G))
    as (r & Sr & Ca & Ct & s1 & s2 & p1 & p2 & p3 & E1 & E2 & E3 & E4 & T' & Sn).
  set (s3 := mkS V r (set_extent V (s_buf V s) r)) in *.
  set (p := j_paint j (get V vblank to15 (s_buf V s3) (j_tx j * TILE) (j_ty j * TILE))) in *.
  exists s3, p. split.
  - rewrite (sched_cons _ _ _ _ _ _ _ _ E E1).
    rewrite (sched_cons _ _ _ _ _ _ _ _ (nth_upd_same _ _ _ _ _ E) E2), upd_upd.
    rewrite (sched_cons _ _ _ _ _ _ _ _ (nth_upd_same _ _ _ _ _ E) E3), upd_upd.
    rewrite (sched_cons _ _ _ _ _ _ _ _ (nth_upd_same _ _ _ _ _ E) E4), upd_upd.
    reflexivity.
  - constructor.
    + exact T'.
    + exact (g_al s js G).
    + apply forall_upd.
      * eapply Forall_impl; [| exact (g_ph s js G)].
        intros [j' ph'] H. unfold phase_ok in *. simpl in *. destruct ph'; auto.
        destruct H as [C P]. split; [| exact P].
        intros x y I. simpl. apply Ca. apply C. exact I.
      * simpl. split; [exact Ct |].
        intros i m Hi Hm. subst p. unfold result. apply LP; [| exact Hi | exact Hm].
        intros i' m' Hi' Hm'. unfold get. rewrite Sn.
        pose proof (still_there s js k j Fresh G ND E ltac:(discriminate) i' m' Hi' Hm') as Q.
        change TILE with 64. rewrite (Z.mul_comm (j_tx j)), (Z.mul_comm (j_ty j)).
        f_equal. exact Q.
    + intros j' x y I AT. rewrite Sn.
      destruct (in_upd _ _ _ _ _ _ E I) as [Q | (m & NM & Q)]; [discriminate Q |].
      apply (g_done s js G); [eapply nth_error_In; eauto | exact AT].
    + intros x y H. rewrite Sn. apply (g_keep s js G). intros j' I. apply H.
      destruct (in_upd_old _ _ _ _ (j, Held p) _ E I) as [Q | Q]; [discriminate Q | exact Q].
Qed.

(** Jobs that have been begun. *)
Definition begun (js : jobs) (bs : nat -> Prop) : Prop :=
  forall k j ph, nth_error js k = Some (j, ph) -> bs k -> ph <> Fresh.

Lemma turns_ok : forall l s js (bs : nat -> Prop), good s js ->
  NoDup (map key (map fst js)) -> Forall fine (map fst js) -> begun js bs ->
  (forall pre k post, l = pre ++ Finish k :: post -> bs k \/ In (Begin k) pre) ->
  exists s' js', ofold sched_step (schedule_of l) (s, js) = Ok (s', js') /\ good s' js' /\
    map fst js' = map fst js.
Proof.
  induction l as [| t l IH]; intros s js bs G ND F B W.
  - exists s, js. split; [reflexivity |]. split; [exact G | reflexivity].
  - assert (FJ : forall k j ph, nth_error js k = Some (j, ph) -> fine j).
    { intros k j ph E. rewrite Forall_forall in F. apply F.
      change j with (fst (j, ph)). apply in_map. eapply nth_error_In; eauto. }
    assert (PH : forall k j ph, nth_error js k = Some (j, ph) -> phase_ok s (j, ph)).
    { intros k j ph E. pose proof (g_ph s js G) as Fp. rewrite Forall_forall in Fp.
      apply Fp. eapply nth_error_In; eauto. }
    unfold schedule_of. cbn [flat_map]. fold (schedule_of l).
    set (k := match t with Begin k => k | Finish k => k end).
    (* the state after this turn *)
    assert (ST : exists s1 js1, ofold sched_step (steps_of t) (s, js) = Ok (s1, js1) /\ good s1 js1 /\
              map fst js1 = map fst js /\
              begun js1 (fun i => bs i \/ t = Begin i)).
    { destruct (nth_error js k) as [[j ph] |] eqn:E.
      2:{ exists s, js. split.
          - assert (NS : sched_step (s, js) k = Ok (s, js))
              by (unfold Gegl.sched_step; rewrite E; reflexivity).
            destruct t; unfold k in NS; cbn [steps_of ofold];
              repeat (rewrite NS; cbn [obind]); reflexivity.
          - split; [exact G |]. split; [reflexivity |].
            intros i j ph Ei [H | H]; [eapply B; eauto |]. subst t. simpl in k. subst k.
            rewrite E in Ei. discriminate Ei. }
      assert (BG : forall ph', ph' <> Fresh -> begun (upd js k (j, ph')) (fun i => bs i \/ t = Begin i)).
      { intros ph' NF i j' ph2 Ei H. destruct (Nat.eq_dec i k) as [-> | NK].
        - rewrite (nth_upd_same _ _ _ _ _ E) in Ei. inversion Ei; subst. exact NF.
        - assert (Ei' : nth_error js i = Some (j', ph2)).
          { rewrite <- Ei. symmetry. apply nth_upd_other. auto. }
          destruct H as [H | H]; [eapply B; eauto |].
          subst t. simpl in k. subst k. congruence. }
      pose proof (FJ k j ph E) as Fj. pose proof (PH k j ph E) as Pj.
      destruct t as [k0 | k0]; simpl in k; subst k.
      - (* begin *)
        destruct ph; simpl in Pj; try contradiction.
        + destruct (good_begin s js k0 j G ND E Fj) as (s1 & p & E1 & G1).
          exists s1, (upd js k0 (j, Held p)). split; [exact E1 |]. split; [exact G1 |].
          split; [eapply map_fst_upd; eauto |]. apply BG. discriminate.
        + destruct (good_finish s js k0 j p G ND E Fj) as (s1 & E1 & G1).
          exists s1, (upd js k0 (j, Over)). split.
          * cbn [steps_of]. rewrite (sched_cons _ _ _ _ _ _ _ _ E E1).
            apply (over_steps 3 k0 s1 _ j); [eapply nth_upd_same; eauto | apply Fj].
          * split; [exact G1 |]. split; [eapply map_fst_upd; eauto |]. apply BG. discriminate.
        + exists s, js. split.
          * cbn [steps_of]. apply (over_steps 4 k0 s _ j E). apply Fj.
          * split; [exact G |]. split; [reflexivity |].
            rewrite <- (upd_self _ _ _ _ E). apply BG. discriminate.
      - (* finish *)
        assert (BK : ph <> Fresh).
        { destruct (W [] k0 l eq_refl) as [H | []]. eapply B; eauto. }
        destruct ph; simpl in Pj; try contradiction.
        + destruct (good_finish s js k0 j p G ND E Fj) as (s1 & E1 & G1).
          exists s1, (upd js k0 (j, Over)). split.
          * cbn [steps_of]. rewrite (sched_cons _ _ _ _ _ _ _ _ E E1). reflexivity.
          * split; [exact G1 |]. split; [eapply map_fst_upd; eauto |]. apply BG. discriminate.
        + exists s, js. split.
          * cbn [steps_of]. apply (over_steps 1 k0 s _ j E). apply Fj.
          * split; [exact G |]. split; [reflexivity |].
            rewrite <- (upd_self _ _ _ _ E). apply BG. discriminate. }
    destruct ST as (s1 & js1 & E1 & G1 & M1 & B1).
    destruct (IH s1 js1 (fun i => bs i \/ t = Begin i)) as (s2 & js2 & E2 & G2 & M2).
    + exact G1.
    + rewrite M1. exact ND.
    + rewrite M1. exact F.
    + exact B1.
    + intros pre i post EQ. destruct (W (t :: pre) i post) as [H | [H | H]].
      * rewrite EQ. reflexivity.
      * left. left. exact H.
      * left. right. exact H.
      * right. exact H.
    + exists s2, js2. split.
      * assert (AP : forall (a b : list nat) st, ofold sched_step (a ++ b) st =
                     let* st' := ofold sched_step a st in ofold sched_step b st').
        { induction a as [| c a IHa]; intros b st; [reflexivity |].
          simpl app. cbn [ofold]. destruct (sched_step st c); cbn [obind]; auto. }
        rewrite AP, E1. cbn [obind]. exact E2.
      * split; [exact G2 |]. rewrite M2. exact M1.
Qed.

End Many.
