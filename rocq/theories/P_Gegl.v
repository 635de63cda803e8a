(** C50: what is painted through a GEGL-backed surface is in the picture of
    its buffer, and everything else in the picture stays.

    The full claim is: for every buffer the surface is given, for every
    number of threads and every order in which their tile requests interleave,
    after the requests the picture (what reading the buffer gives) is the old
    picture with the painted tiles replaced, and requests for reading do not
    change it.  This is false in three ways, each shown below by a concrete
    run: requests of several threads can lose painted tiles
    ([C50_parallel_refuted]), painting on a buffer that already has a picture
    hides that picture ([C50_attached_refuted]), and reading from a buffer of
    another format changes it ([C50_sampling_refuted]).  Proved is the claim
    for requests one after the other ([C50_one_at_a_time_partial]) and for all
    interleavings in which no two requests are started at the same time
    ([C50_separate_starts_partial]). *)
From Coq Require Import ZifyBool.
From Verif Require Import Base Blend Gegl GeglProofs.

(** ** Vocabulary *)

(** A picture, with pixels of any kind. *)
Definition picture (V : Type) := Z -> Z -> V.

(** What reading the buffer of the surface gives. *)
Definition shown {V} (vblank : V) (s : gsurf V) : picture V :=
  fun x y => seen V vblank (s_buf V s) x y.

(** Tiles are 64 by 64 pixels: pixel (x, y) is in tile (x / 64, y / 64), at
    (x mod 64, y mod 64). *)
Definition in_tile_of (j : job) (x y : Z) : bool := (x / 64 =? j_tx j) && (y / 64 =? j_ty j).

(** The part of a picture in the tile a job asks for, in the surface's pixel
    format. *)
Definition tile_part {V} (to15 : V -> pixel) (pic : picture V) (j : job) : patch :=
  fun i k => to15 (pic (64 * j_tx j + i) (64 * j_ty j + k)).

(** The picture after a job by itself. *)
Definition painted {V} (to15 : V -> pixel) (from15 : pixel -> V) (pic : picture V) (j : job)
  : picture V :=
  fun x y =>
    if negb (j_readonly j) && in_tile_of j x y
    then from15 (j_paint j (tile_part to15 pic j) (x mod 64) (y mod 64))
    else pic x y.

(** Pixels with int coordinates. *)
Definition close_enough (j : job) : Prop :=
  - 16777216 < j_tx j < 16777216 /\ - 16777216 < j_ty j < 16777216.

(** What the caller does with a tile depends on the contents of the tile. *)
Definition uses_the_tile (j : job) : Prop :=
  forall p q, (forall i k, 0 <= i < 64 -> 0 <= k < 64 -> p i k = q i k) ->
  forall i k, 0 <= i < 64 -> 0 <= k < 64 -> j_paint j p i k = j_paint j q i k.

(** The surface knows the extent of its buffer: the box it keeps for itself
    is empty or has int coordinates, and contains the extent; nothing is
    stored outside the extent. *)
Definition in_step {V} (vblank : V) (s : gsurf V) : Prop :=
  let r := s_rect V s in
  let b := s_buf V s in
  ((gw r = 0 /\ gh r = 0) \/
   (- 1073741824 < gx r /\ 0 < gw r /\ gx r + gw r <= 1073741824 /\
    - 1073741824 < gy r /\ 0 < gh r /\ gy r + gh r <= 1073741824)) /\
  (forall x y, inside (b_extent V b) x y = true -> inside r x y = true) /\
  (forall x y, inside (b_extent V b) x y = false -> b_data V b x y = vblank).

Lemma new_in_step : forall V (vblank : V), in_step vblank (new_surface V vblank).
Proof.
  intros V vb. split; [left; split; reflexivity |]. split; [auto | reflexivity].
Qed.

(** ** Requests one after the other *)

Theorem C50_one_at_a_time_partial :
  forall V (vblank : V) to15 from15 (l : list job) (s : gsurf V),
  in_step vblank s ->
  (b_native V (s_buf V s) = true -> b_aligned V (s_buf V s) = true) ->
  (forall j, In j l -> close_enough j /\ uses_the_tile j) ->
  (b_native V (s_buf V s) = true \/ forall j, In j l -> j_readonly j = false) ->
  exists s', run_jobs V vblank to15 from15 l s = Ok s' /\ in_step vblank s' /\
  forall x y, shown vblank s' x y = fold_left (painted to15 from15) l (shown vblank s) x y.
Proof.
  intros V vb to15 from15.
  assert (EXT : forall l (p q : picture V), (forall j, In j l -> uses_the_tile j) ->
            (forall x y, p x y = q x y) ->
            forall x y, fold_left (painted to15 from15) l p x y = fold_left (painted to15 from15) l q x y).
  { induction l as [| j l IH]; intros p q U H x y; [apply H |].
    simpl. apply IH; [intros; apply U; right; auto |].
    intros x1 y1. unfold painted. destruct (negb (j_readonly j) && in_tile_of j x1 y1); [| apply H].
    f_equal. apply (U j (or_introl eq_refl)).
    - intros i k _ _. unfold tile_part. rewrite H. reflexivity.
    - apply Z.mod_pos_bound. lia.
    - apply Z.mod_pos_bound. lia. }
  induction l as [| j l IH]; intros s T AL U RO.
  - exists s. split; [reflexivity |]. split; [exact T | reflexivity].
  - destruct (U j (or_introl eq_refl)) as [N LP].
    assert (ST : exists s1, one_job V vb to15 from15 s j = Ok s1 /\ in_step vb s1 /\
              b_native V (s_buf V s1) = b_native V (s_buf V s) /\
              b_aligned V (s_buf V s1) = b_aligned V (s_buf V s) /\
              forall x y, shown vb s1 x y = painted to15 from15 (shown vb s) j x y).
    { destruct (j_readonly j) eqn:R.
      - exists s. split.
        + apply read_ok; [exact N | exact R |].
          destruct RO as [H | H]; [exact H |]. rewrite (H j (or_introl eq_refl)) in R. discriminate R.
        + split; [exact T |]. split; [reflexivity |]. split; [reflexivity |].
          intros x y. unfold painted. rewrite R. reflexivity.
      - destruct (write_ok V vb to15 from15 s j T N R LP AL) as (s1 & E1 & T1 & A1 & A2 & S1).
        exists s1. split; [exact E1 |]. split; [exact T1 |]. split; [exact A1 |]. split; [exact A2 |].
        intros x y. unfold shown. rewrite S1. unfold painted, in_tile_of. rewrite R. reflexivity. }
    destruct ST as (s1 & E1 & T1 & A1 & A2 & S1).
    destruct (IH s1) as (s2 & E2 & T2 & S2).
    + exact T1.
    + rewrite A1, A2. exact AL.
    + intros; apply U; right; auto.
    + rewrite A1. destruct RO as [H | H]; [left; exact H | right; intros; apply H; right; auto].
    + exists s2. split; [| split; [exact T2 |]].
      * unfold run_jobs in *. simpl ofold. rewrite E1. exact E2.
      * intros x y. rewrite S2. simpl. apply EXT; [intros; apply U; right; auto | exact S1].
Qed.

(** ** Requests of several threads, started one at a time

    [Begin k] is the whole of job k's tile_request_start, [Finish k] its
    tile_request_end; the turns of the jobs come in any order. *)
Theorem C50_separate_starts_partial :
  forall V (vblank : V) to15 from15 (js : list job) (turns : list turn) (s : gsurf V),
  in_step vblank s ->
  (b_native V (s_buf V s) = true -> b_aligned V (s_buf V s) = true) ->
  (forall j, In j js -> close_enough j /\ uses_the_tile j /\ j_readonly j = false) ->
  NoDup (map (fun j => (j_tx j, j_ty j)) js) ->
  (forall pre k post, turns = pre ++ Finish k :: post -> In (Begin k) pre) ->
  exists s' js', run_schedule V vblank to15 from15 (schedule_of turns) s
                   (map (fun j => (j, Fresh)) js) = Ok (s', js') /\
  (all_over js' -> forall x y,
     (forall j, In j js -> in_tile_of j x y = true ->
        shown vblank s' x y =
        from15 (j_paint j (tile_part to15 (shown vblank s) j) (x mod 64) (y mod 64))) /\
     ((forall j, In j js -> in_tile_of j x y = false) -> shown vblank s' x y = shown vblank s x y)).
Proof.
  intros V vb to15 from15 js turns s T AL F ND W.
  set (js0 := map (fun j => (j, Fresh)) js).
  assert (M0 : map fst js0 = js) by (unfold js0; rewrite map_map; apply map_id).
  assert (G0 : good V vb to15 from15 (shown vb s) s js0).
  { constructor.
    - exact T.
    - exact AL.
    - unfold js0. apply Forall_forall. intros jp I. apply in_map_iff in I.
      destruct I as (j & <- & _). exact Logic.I.
    - intros j x y I. unfold js0 in I. apply in_map_iff in I. destruct I as (? & Q & _). discriminate Q.
    - reflexivity. }
  destruct (turns_ok V vb to15 from15 (shown vb s) turns s js0 (fun _ => False))
    as (s' & js' & E & G & M).
  - exact G0.
  - rewrite M0. exact ND.
  - rewrite M0. apply Forall_forall. intros j I. destruct (F j I) as (N & U & R).
    split; [exact N | split; [exact R | exact U]].
  - intros k j ph _ [].
  - intros pre k post EQ. right. eapply W. exact EQ.
  - exists s', js'. split; [exact E |].
    rewrite M0 in M. intros O x y.
    assert (OV : forall j, In j js -> In (j, Over) js').
    { intros j I. rewrite <- M in I. apply in_map_iff in I. destruct I as ([j' ph] & <- & I).
      unfold all_over in O. rewrite Forall_forall in O. specialize (O _ I). simpl in O. subst ph. exact I. }
    split.
    + intros j I A. unfold in_tile_of in A. apply andb_true_iff in A. destruct A as [A B].
      apply Z.eqb_eq in A, B.
      exact (g_done V vb to15 from15 (shown vb s) s' js' G j x y (OV j I) (conj A B)).
    + intro H. apply (g_keep V vb to15 from15 (shown vb s) s' js' G).
      intros j I [A B]. assert (Ij : In j js).
      { rewrite <- M. change j with (fst (j, Over)). apply in_map. exact I. }
      specialize (H j Ij). unfold in_tile_of in H. rewrite A, B, !Z.eqb_refl in H. discriminate H.
Qed.

(** Cases: native buffers, pixels as the surface has them. *)
Definition native (p : pixel) : pixel := p.
Definition red : pixel := mkPx 32768 0 0 32768.
Definition fill (tx ty : Z) (c : pixel) : job := mkJ tx ty false (fun _ _ _ => c).
Definition lighten (tx ty : Z) : job :=
  mkJ tx ty false (fun p i k => let c := p i k in mkPx (pr c / 2) (pg c / 2) (pb c / 2) (pa c / 2)).
Definition look (tx ty : Z) : job := mkJ tx ty true (fun p => p).
Definition start : gsurf pixel := new_surface pixel blank.

Lemma fill_local : forall tx ty c, uses_the_tile (fill tx ty c).
Proof. intros tx ty c p q _ i k _ _. reflexivity. Qed.
Lemma lighten_local : forall tx ty, uses_the_tile (lighten tx ty).
Proof. intros tx ty p q H i k Hi Hk. simpl. rewrite (H i k Hi Hk). reflexivity. Qed.
Lemma look_local : forall tx ty, uses_the_tile (look tx ty).
Proof. intros tx ty p q H i k Hi Hk. exact (H i k Hi Hk). Qed.

Example C50_one_at_a_time_case : exists s',
  run_jobs pixel blank native native [fill (-1) 2 red; look 5 5; lighten (-1) 2] start = Ok s' /\
  shown blank s' (-64) 130 = mkPx 16384 0 0 16384 /\ shown blank s' 0 0 = blank.
Proof.
  destruct (C50_one_at_a_time_partial pixel blank native native
              [fill (-1) 2 red; look 5 5; lighten (-1) 2] start) as (s' & E & _ & S).
  - apply new_in_step.
  - reflexivity.
  - intros j [<- | [<- | [<- | []]]]; (split; [split; simpl; lia |]).
    + apply fill_local.
    + apply look_local.
    + apply lighten_local.
  - left. reflexivity.
  - exists s'. split; [exact E |]. rewrite !S. split; reflexivity.
Qed.

Definition four : list job := [fill 0 0 red; fill 1 0 red; fill 0 1 red; fill 1 1 red].
Definition turns4 : list turn :=
  [Begin 2; Begin 0; Finish 2; Begin 3; Begin 1; Finish 1; Finish 0; Finish 3].

Example C50_separate_starts_case : exists s' js',
  run_schedule pixel blank native native (schedule_of turns4) start
    (map (fun j => (j, Fresh)) four) = Ok (s', js') /\
  all_over js' /\ shown blank s' 127 127 = red /\ shown blank s' 128 127 = blank.
Proof.
  destruct (C50_separate_starts_partial pixel blank native native four turns4 start)
    as (s' & js' & E & S).
  - apply new_in_step.
  - reflexivity.
  - intros j [<- | [<- | [<- | [<- | []]]]]; (split; [split; simpl; lia | split; [apply fill_local | reflexivity]]).
  - simpl. repeat (constructor; [simpl; intuition congruence |]). constructor.
  - intros pre k post EQ. unfold turns4 in EQ.
    do 8 (destruct pre as [| ? pre]; [try discriminate EQ; injection EQ as <- _; simpl; tauto |
                                      injection EQ as <- EQ]).
    destruct pre; discriminate EQ.
  - exists s', js'. split; [exact E |].
    assert (O : all_over js').
    { assert (Q : match run_schedule pixel blank native native (schedule_of turns4) start
                        (map (fun j => (j, Fresh)) four) with
                  | Ok (_, js') => forallb (fun jp => match snd jp with Over => true | _ => false end) js'
                  | _ => false end = true) by reflexivity.
      rewrite E in Q. rewrite forallb_forall in Q. apply Forall_forall. intros jp I.
      specialize (Q jp I). destruct (snd jp); congruence. }
    split; [exact O |]. split.
    + destruct (S O 127 127) as [A _]. exact (A (fill 1 1 red) ltac:(simpl; tauto) eq_refl).
    + destruct (S O 128 127) as [_ B]. rewrite B; [reflexivity |].
      intros j [<- | [<- | [<- | [<- | []]]]]; reflexivity.
Qed.

(** ** Requests of several threads, without that restriction

    Four threads, four different tiles of a new surface, every request
    completed; the tile at the origin has been painted and is not in the
    picture.  (The first job computes its bounding box, then the others do
    their work, then the first job stores its box over theirs; the same
    happens to the extent of the buffer.) *)
Definition race : list nat := [1; 0; 0; 0; 0; 0; 2; 2; 2; 2; 2; 3; 3; 3; 3; 3; 1; 1; 1; 1]%nat.

Theorem C50_parallel_refuted : exists sched s' js',
  run_schedule pixel blank native native sched start (map (fun j => (j, Fresh)) four) = Ok (s', js') /\
  all_over js' /\ shown blank s' 0 0 <> red.
Proof.
  exists race.
  destruct (run_schedule pixel blank native native race start (map (fun j => (j, Fresh)) four))
    as [[s' js'] | |] eqn:E; [| discriminate E | discriminate E].
  exists s', js'. split; [reflexivity |].
  assert (Q : match run_schedule pixel blank native native race start
                      (map (fun j => (j, Fresh)) four) with
              | Ok (s', js') =>
                  forallb (fun jp => match snd jp with Over => true | _ => false end) js' &&
                  (pa (shown blank s' 0 0) =? 0)
              | _ => false end = true) by reflexivity.
  rewrite E in Q. apply andb_true_iff in Q. destruct Q as [Q1 Q2]. split.
  - rewrite forallb_forall in Q1. apply Forall_forall. intros jp I.
    specialize (Q1 jp I). destruct (snd jp); congruence.
  - intro R. rewrite R in Q2. discriminate Q2.
Qed.

(** ** A buffer that already has a picture

    A red picture of 100 by 100 pixels is given to a new surface; one tile far
    from pixel (0, 0) is painted.  Pixel (0, 0) is no longer red. *)
Definition photo : gbuf pixel :=
  mkB pixel true true (mkG 0 0 100 100) (fun x y => if inside (mkG 0 0 100 100) x y then red else blank).

Theorem C50_attached_refuted :
  shown blank (attach pixel blank start (Some photo)) 0 0 = red /\
  exists s', run_jobs pixel blank native native [fill 1 1 red]
               (attach pixel blank start (Some photo)) = Ok s' /\
             shown blank s' 0 0 = blank.
Proof.
  split; [reflexivity |].
  eexists. split; [reflexivity |]. reflexivity.
Qed.

(** ** Reading from a buffer of another format

    A buffer with 16-bit components (65535 is full), converted to and from the
    surface's 15 bits by rounding to nearest.  Reading one tile changes a
    pixel of the picture. *)
Definition to_15 (c : pixel) : pixel :=
  let f v := (v * 32768 + 32767) / 65535 in mkPx (f (pr c)) (f (pg c)) (f (pb c)) (f (pa c)).
Definition from_15 (c : pixel) : pixel :=
  let f v := (v * 65535 + 16384) / 32768 in mkPx (f (pr c)) (f (pg c)) (f (pb c)) (f (pa c)).
Definition photo16 : gbuf pixel :=
  mkB pixel false true (mkG 0 0 100 100) (fun x y => mkPx 1 0 0 65535).

Theorem C50_sampling_refuted : exists s',
  run_jobs pixel blank to_15 from_15 [look 0 0] (attach pixel blank start (Some photo16)) = Ok s' /\
  shown blank (attach pixel blank start (Some photo16)) 3 4 = mkPx 1 0 0 65535 /\
  shown blank s' 3 4 = mkPx 2 0 0 65535.
Proof. eexists. split; [reflexivity |]. split; reflexivity. Qed.

(** ** References to buffers

    [others k] references to buffer k are held by the program, not by the
    surface.  Through any sequence of set_buffer calls the surface holds one
    reference to its current buffer and none to any other, and gives it back
    when it is destroyed. *)
Definition own (r : refs) (k : nat) : Z :=
  match r_cur r with Some c => if Nat.eqb k c then 1 else 0 | None => 0 end.

Theorem C50_references : forall (others : nat -> Z) (calls : list (option nat)) (n : nat),
  (forall k, (n <= k)%nat -> others k = 0) -> (forall k, 0 <= others k) ->
  (forall k, In (Some k) calls -> 0 < others k) ->
  exists r, ofold set_buffer_refs (None :: calls) (mkR others None n) = Ok r /\
    (forall k, r_count r k = others k + own r k) /\
    exists r', destroy_refs r = Ok r' /\ forall k, r_count r' k = others k.
Proof.
  intros others calls n Z0 P0 H.
  assert (GEN : forall l r, (forall k, In (Some k) l -> 0 < others k) ->
            (forall k, r_count r k = others k + own r k) ->
            (forall k, (r_next r <= k)%nat -> others k = 0) ->
            (forall c, r_cur r = Some c -> (c < r_next r)%nat) -> (exists c, r_cur r = Some c) ->
            exists r1, ofold set_buffer_refs l r = Ok r1 /\ (forall k, r_count r1 k = others k + own r1 k) /\
              exists c, r_cur r1 = Some c).
  { induction l as [| b l IH]; intros r HL CN NX CU [c C].
    - exists r. split; [reflexivity |]. split; [exact CN | eauto].
    - pose proof (CN c) as Cc. unfold own in Cc. rewrite C, Nat.eqb_refl in Cc.
      pose proof (P0 c) as Pc.
      assert (UN : unref (r_count r) c = Ok (bump (r_count r) c (-1))).
      { unfold unref. replace (0 <? r_count r c) with true by lia. reflexivity. }
      assert (UC : forall k, bump (r_count r) c (-1) k = others k).
      { intro k. unfold bump. specialize (CN k). unfold own in CN. rewrite C in CN.
        destruct (Nat.eqb k c); lia. }
      assert (ST : exists r1, set_buffer_refs r b = Ok r1 /\
                (forall k, r_count r1 k = others k + own r1 k) /\
                (forall k, (r_next r1 <= k)%nat -> others k = 0) /\
                (forall c, r_cur r1 = Some c -> (c < r_next r1)%nat) /\ (exists c, r_cur r1 = Some c)).
      { destruct b as [k |]; unfold set_buffer_refs; rewrite C.
        - destruct (Nat.eqb k c) eqn:KC.
          + exists r. split; [reflexivity |]. split; [exact CN |]. split; [exact NX |].
            split; [exact CU | eauto].
          + rewrite UN. cbn [obind]. rewrite UC.
            pose proof (HL k (or_introl eq_refl)) as Hk.
            replace (0 <? others k) with true by lia.
            eexists. split; [reflexivity |]. split; [| split; [exact NX | split]].
            * intro i. unfold own. cbn [r_count r_cur]. unfold bump at 1. rewrite UC.
              destruct (Nat.eqb i k); lia.
            * cbn [r_cur r_next]. intros c' [= <-].
              destruct (le_lt_dec (r_next r) k) as [L | L]; [| exact L].
              rewrite (NX k L) in Hk. lia.
            * cbn [r_cur]. eauto.
        - rewrite UN. cbn [obind].
          eexists. split; [reflexivity |]. split; [| split; [| split]].
          + intro i. unfold own. cbn [r_count r_cur]. rewrite UC.
            destruct (Nat.eqb i (r_next r)) eqn:Q; [| lia].
            apply Nat.eqb_eq in Q. rewrite (NX i) by lia. lia.
          + cbn [r_next]. intros i L. apply NX. lia.
          + cbn [r_cur r_next]. intros c' [= <-]. lia.
          + cbn [r_cur]. eauto. }
      destruct ST as (r1 & E1 & A & B & D & F).
      simpl ofold. rewrite E1. cbn [obind].
      apply IH; auto. intros; apply HL; right; auto. }
  destruct (GEN calls (mkR (fun i => if Nat.eqb i n then 1 else others i) (Some n) (S n)))
    as (r & E & CN & c & C).
  - exact H.
  - intro i. unfold own. cbn [r_count r_cur].
    destruct (Nat.eqb i n) eqn:Q; [| lia]. apply Nat.eqb_eq in Q. rewrite (Z0 i) by lia. lia.
  - cbn [r_next]. intros i L. apply Z0. lia.
  - cbn [r_cur r_next]. intros i [= <-]. lia.
  - cbn [r_cur]. eauto.
  - exists r. split; [exact E |]. split; [exact CN |].
    pose proof (CN c) as Cc. unfold own in Cc. rewrite C, Nat.eqb_refl in Cc. pose proof (P0 c).
    unfold destroy_refs. rewrite C. unfold unref. replace (0 <? r_count r c) with true by lia.
    cbn [obind]. eexists. split; [reflexivity |].
    intro k. cbn [r_count]. unfold bump. specialize (CN k). unfold own in CN. rewrite C in CN.
    destruct (Nat.eqb k c); lia.
Qed.

(** The header says that set_buffer takes over the caller's reference
    ("transfer full").  A program that goes by this and does not give its
    reference back leaves the buffer behind with one reference for ever. *)
Theorem C50_transfer_full_refuted : exists r r',
  ofold set_buffer_refs [None; Some 0%nat]
    (mkR (fun k => if Nat.eqb k 0 then 1 else 0) None 1) = Ok r /\
  destroy_refs r = Ok r' /\ r_count r' 0%nat = 1.
Proof. eexists. eexists. split; [reflexivity |]. split; reflexivity. Qed.

Example C50_references_case : exists r,
  ofold set_buffer_refs [None; Some 0%nat; Some 1%nat; Some 1%nat; None; Some 0%nat]
    (mkR (fun k => if (k <? 2)%nat then 2 else 0) None 2) = Ok r /\
  r_count r 0%nat = 3 /\ r_count r 1%nat = 2 /\ r_count r 2%nat = 0.
Proof. eexists. split; [reflexivity |]. repeat split. Qed.

Print Assumptions C50_one_at_a_time_partial.
Print Assumptions C50_separate_starts_partial.
Print Assumptions C50_parallel_refuted.
Print Assumptions C50_attached_refuted.
Print Assumptions C50_sampling_refuted.
Print Assumptions C50_references.
Print Assumptions C50_transfer_full_refuted.
