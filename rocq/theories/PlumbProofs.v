(** Proofs about Plumb.v *)
From Verif Require Import Base Queue QueueProofs Plumb.
From Coq Require Import ZifyBool.

Section P.
  Variables (Op T : Type).
  Variable micro : tile -> Op -> list (T -> outcome T).
  Notation apply := (apply Op T micro).
  Notation surf := (surf Op T).
  Notation process_tile := (process_tile Op T micro).
  Notation drain := (drain Op T micro).
  Notation set_pix := (set_pix T).
  Implicit Types (s : surf) (q : queue Op) (t : tile) (can : tile -> bool).

  Lemma teq_refl : forall t, tile_equal t t = true.
  Proof. intros. apply tile_equal_spec; auto. Qed.
  Lemma teq_neq : forall t t', t <> t' -> tile_equal t t' = false.
  Proof. intros t t' H. destruct (tile_equal t t') eqn:E; auto. apply tile_equal_spec in E. contradiction. Qed.

  (** [q'] differs from [q] in the payloads of [t] only *)
  Record only q q' t (l : list Op) : Prop := {
    only_wf : wf q';
    only_dirty : q_dirty q' = q_dirty q;
    only_size : q_size q' = q_size q;
    only_pend : forall t', pend q' t' = if tile_equal t t' then l else pend q t'
  }.

  Lemma only_trans : forall q q1 q2 t l1 l2, only q q1 t l1 -> only q1 q2 t l2 -> only q q2 t l2.
  Proof.
    intros q q1 q2 t l1 l2 [W D S P] [W' D' S' P']. constructor; auto; try congruence.
    intros t'. rewrite P', P. destruct (tile_equal t t'); auto.
  Qed.

  Lemma pop_only : forall q t, wf q ->
    exists q', operation_queue_pop q t = Ok (hd_error (pend q t), q') /\ only q q' t (tl (pend q t)).
  Proof.
    intros q t W. destruct (pop_spec Op q t W) as (q' & E & W' & D & S & P).
    exists q'. split; auto. constructor; auto. intros t'. rewrite P.
    destruct (tile_equal t t') eqn:X; auto. apply tile_equal_spec in X. now subst.
  Qed.

  Lemma nth_count : forall (m : list (option (list Op))) n,
    (length (match nth n m None with Some l => l | None => [] end)
      <= fold_right (fun (x : option (list Op)) n => (match x with Some l => length l | None => 0 end + n)%nat) 0%nat m)%nat.
  Proof.
    induction m as [|a m IH]; intros [|n]; simpl; try lia.
    - destruct a; simpl; lia.
    - specialize (IH n). lia.
  Qed.

  Lemma pend_count : forall q t, (length (pend q t) <= pending_count Op q)%nat.
  Proof.
    intros q t. unfold pend. destruct (tile_map_contains (q_size q) t); simpl; [|lia].
    unfold look, pending_count. apply nth_count.
  Qed.

  Lemma drain_spec : forall fuel q t o v, wf q -> (length (pend q t) < fuel)%nat ->
    match ofold (apply t) (o :: pend q t) v with
    | Ok v' => exists q', drain fuel q t o v = Ok (q', v') /\ only q q' t []
    | Abort => drain fuel q t o v = Abort
    | UB => drain fuel q t o v = UB
    end.
  Proof.
    induction fuel as [|fuel IH]; intros q t o v W L; [lia|].
    cbn [ofold Plumb.drain]. destruct (apply t v o) as [v1| |]; simpl; auto.
    destruct (pop_only q t W) as (q1 & E1 & O1). rewrite E1. simpl.
    destruct (pend q t) as [|o1 l] eqn:Ep; simpl in *.
    - eauto.
    - assert (pend q1 t = l) as E2 by (rewrite (only_pend _ _ _ _ O1), teq_refl; auto).
      specialize (IH q1 t o1 v1 (only_wf _ _ _ _ O1)). rewrite E2 in IH.
      specialize (IH ltac:(lia)). cbn [ofold] in IH.
      destruct (let* x := apply t v1 o1 in ofold (apply t) l x) as [v'| |]; auto.
      destruct IH as (q2 & E3 & O3). exists q2. split; auto. eapply only_trans; eauto.
  Qed.

  #[local] Arguments Plumb.drain : simpl never.

  (** what process_tile does to its tile *)
  Definition tile_result can t (pd : list Op) (v : T) : outcome (T * list Op) :=
    match pd with
    | [] => Ok (v, [])
    | _ :: r => if can t then let* v := ofold (apply t) pd v in Ok (v, []) else Ok (v, r)
    end.

  Record sonly s s' t (v : T) (l : list Op) : Prop := {
    sonly_q : only (sf_q s) (sf_q s') t l;
    sonly_pix : forall t', sf_pix s' t' = if tile_equal t t' then v else sf_pix s t'
  }.

  Lemma process_tile_spec : forall can s t, wf (sf_q s) ->
    match tile_result can t (pend (sf_q s) t) (sf_pix s t) with
    | Ok (v, l) => exists s', process_tile can s t = Ok s' /\ sonly s s' t v l
    | Abort => process_tile can s t = Abort
    | UB => process_tile can s t = UB
    end.
  Proof.
    intros can s t W. unfold process_tile, tile_result.
    destruct (pop_only (sf_q s) t W) as (q1 & E1 & O1). rewrite E1. simpl.
    assert (forall t', (if tile_equal t t' then sf_pix s t else sf_pix s t') = sf_pix s t') as Id.
    { intros t'. destruct (tile_equal t t') eqn:X; auto. apply tile_equal_spec in X. now subst. }
    destruct (pend (sf_q s) t) as [|o l] eqn:Ep; simpl in *.
    - eexists. split; [reflexivity|]. constructor; simpl; auto.
    - assert (pend q1 t = l) as E2 by (rewrite (only_pend _ _ _ _ O1), teq_refl; auto).
      destruct (can t).
      + pose proof (drain_spec (S (pending_count Op q1)) q1 t o (sf_pix s t) (only_wf _ _ _ _ O1)) as D.
        rewrite E2 in D. cbn [ofold] in D.
        assert (length l < S (pending_count Op q1))%nat as Lt.
        { pose proof (pend_count q1 t) as H. rewrite E2 in H. lia. }
        specialize (D Lt).
        destruct (let* x := apply t (sf_pix s t) o in ofold (apply t) l x) as [v'| |]; simpl.
        * destruct D as (q2 & -> & O2). simpl. eexists. split; [reflexivity|].
          constructor; simpl; [eapply only_trans; eauto|]. intros. reflexivity.
        * rewrite D. reflexivity.
        * rewrite D. reflexivity.
      + eexists. split; [reflexivity|]. constructor; simpl; auto.
  Qed.

  Lemma process_tile_ok : forall can s t s', wf (sf_q s) -> process_tile can s t = Ok s' ->
    exists v l, tile_result can t (pend (sf_q s) t) (sf_pix s t) = Ok (v, l) /\ sonly s s' t v l.
  Proof.
    intros can s t s' W H. pose proof (process_tile_spec can s t W) as P.
    destruct (tile_result can t (pend (sf_q s) t) (sf_pix s t)) as [[v l]| |]; try congruence.
    destruct P as (s1 & E & O). rewrite E in H. inversion H; subst. eauto.
  Qed.

  (** what the tile will show once everything pending is applied *)
  Definition view s t : outcome T := ofold (apply t) (pend (sf_q s) t) (sf_pix s t).

  Lemma process_tile_view : forall can s t s', wf (sf_q s) -> process_tile can s t = Ok s' ->
    wf (sf_q s') /\ q_dirty (sf_q s') = q_dirty (sf_q s) /\
    (forall t', can t' = true -> view s' t' = view s t' /\ (pend (sf_q s) t' = [] -> pend (sf_q s') t' = [])) /\
    (can t = true -> pend (sf_q s') t = []) /\
    (forall t', t' <> t -> pend (sf_q s') t' = pend (sf_q s) t' /\ sf_pix s' t' = sf_pix s t').
  Proof.
    intros can s t s' W H. destruct (process_tile_ok can s t s' W H) as (v & l & R & [O P]).
    assert (can t = true -> l = []) as Hl.
    { intros C. unfold tile_result in R. rewrite C in R.
      destruct (pend (sf_q s) t) as [|o pd]; [congruence|].
      apply obind_ok in R. destruct R as (v1 & R1 & R2). congruence. }
    split; [apply O|]. split; [apply O|]. split; [|split].
    - intros t' C. unfold view. rewrite (only_pend _ _ _ _ O), P.
      destruct (tile_equal t t') eqn:X; [|auto]. apply tile_equal_spec in X. subst t'.
      split; [|intros; apply Hl; auto]. rewrite (Hl C). simpl.
      unfold tile_result in R. rewrite C in R.
      destruct (pend (sf_q s) t) as [|o pd]; [simpl; congruence|].
      apply obind_ok in R. destruct R as (v1 & R1 & R2). rewrite R1. congruence.
    - intros C. rewrite (only_pend _ _ _ _ O), teq_refl. auto.
    - intros t' N. rewrite (only_pend _ _ _ _ O), P, teq_neq; auto.
  Qed.

  (** a list of distinct tiles *)
  Lemma process_list_ok : forall can ts s s', wf (sf_q s) -> NoDup ts ->
    ofold (process_tile can) ts s = Ok s' ->
    wf (sf_q s') /\ q_dirty (sf_q s') = q_dirty (sf_q s) /\
    forall t, if in_dec tile_eq_dec t ts
      then tile_result can t (pend (sf_q s) t) (sf_pix s t) = Ok (sf_pix s' t, pend (sf_q s') t)
      else sf_pix s' t = sf_pix s t /\ pend (sf_q s') t = pend (sf_q s) t.
  Proof.
    induction ts as [|t0 ts IH]; intros s s' W N H; cbn [ofold] in H.
    - inversion H; subst. split; [auto|]. split; [auto|]. intros t. simpl. auto.
    - apply obind_ok in H. destruct H as (s1 & E1 & E2). inversion N as [|? ? N1 N2]; subst.
      destruct (process_tile_ok can s t0 s1 W E1) as (v & l & R & [O P]).
      destruct (IH s1 s' (only_wf _ _ _ _ O) N2 E2) as (W' & D' & Q).
      split; [auto|]. split; [rewrite D'; apply O|].
      intros t. specialize (Q t).
      destruct (in_dec tile_eq_dec t (t0 :: ts)) as [I|I]; destruct (in_dec tile_eq_dec t ts) as [I'|I'].
      + assert (t0 <> t) by (intros ->; contradiction).
        rewrite (only_pend _ _ _ _ O), P, teq_neq in Q; auto.
      + destruct I as [->|I]; [|contradiction]. destruct Q as [Q1 Q2].
        rewrite Q1, Q2, (only_pend _ _ _ _ O), P, teq_refl. auto.
      + exfalso. apply I. right; auto.
      + assert (t0 <> t) by (intros ->; apply I; left; auto).
        rewrite (only_pend _ _ _ _ O), P, teq_neq in Q; auto.
  Qed.

  Lemma process_list_total : forall can ts s, wf (sf_q s) -> NoDup ts ->
    (forall t, In t ts -> is_ok (tile_result can t (pend (sf_q s) t) (sf_pix s t))) ->
    is_ok (ofold (process_tile can) ts s).
  Proof.
    induction ts as [|t0 ts IH]; intros s W N H; cbn [ofold]; [eexists; reflexivity|].
    inversion N as [|? ? N1 N2]; subst.
    pose proof (process_tile_spec can s t0 W) as P.
    destruct (H t0 (or_introl eq_refl)) as ([v l] & E). rewrite E in P.
    destruct P as (s1 & -> & [O Px]). simpl. apply IH; auto; [apply O|].
    intros t I. rewrite (only_pend _ _ _ _ O), Px, teq_neq; [|intros ->; contradiction].
    apply H. right; auto.
  Qed.

  (** ** Drawing *)
  Lemma add_keeps_dirty : forall q t o q', wf q -> operation_queue_add q t o = Ok q' ->
    forall t', In t' (q_dirty q) -> In t' (q_dirty q').
  Proof.
    intros q t o q' W H t' I. destruct (add_spec _ _ _ _ _ W H) as (_ & _ & D).
    destruct D as [[_ ->]|[_ [->|[_ ->]]]]; auto; apply in_or_app; left; auto.
    apply remove_dup_spec; auto.
  Qed.
  Lemma add_marks : forall q t o q', wf q -> operation_queue_add q t o = Ok q' ->
    pend q t = [] -> In t (q_dirty q').
  Proof.
    intros q t o q' W H E. destruct (add_spec _ _ _ _ _ W H) as (_ & _ & D).
    destruct D as [[C _]|[_ [->|[_ ->]]]]; [contradiction| |]; apply in_or_app; right; left; auto.
  Qed.

  Definition marked q t : Prop := pend q t <> [] -> In t (q_dirty q).

  Lemma add_marked : forall q t o q' t', wf q -> operation_queue_add q t o = Ok q' ->
    marked q t' -> marked q' t'.
  Proof.
    intros q t o q' t' W H M Hp. pose proof (add_keeps_dirty q t o q' W H t') as K.
    destruct (add_spec _ _ _ _ _ W H) as (_ & P & _). rewrite P in Hp.
    destruct (tile_equal t t') eqn:X; [|apply K, M; auto].
    apply tile_equal_spec in X. subst t'.
    destruct (pend q t) eqn:E; [eapply add_marks; eauto|]. apply K, M. congruence.
  Qed.

  Definition copies t (o : Op) (ts : list tile) : list Op := map (fun _ => o) (filter (tile_equal t) ts).

  Lemma teq_sym : forall a b, tile_equal a b = tile_equal b a.
  Proof. intros [a b] [c d]. unfold tile_equal. simpl. now rewrite (Z.eqb_sym a c), (Z.eqb_sym b d). Qed.

  Lemma enqueue_q : forall o ts q q', wf q -> ofold (fun q t => operation_queue_add q t o) ts q = Ok q' ->
    wf q' /\ (forall t, pend q' t = pend q t ++ copies t o ts) /\ (forall t, marked q t -> marked q' t).
  Proof.
    induction ts as [|t0 ts IH]; intros q q' W H; cbn [ofold] in H.
    - inversion H; subst. split; [auto|]. split; [|auto]. intros. unfold copies. simpl. now rewrite app_nil_r.
    - apply obind_ok in H. destruct H as (q1 & E1 & E2).
      destruct (add_spec _ _ _ _ _ W E1) as (W1 & P1 & _).
      destruct (IH q1 q' W1 E2) as (W' & P & M). split; auto. split.
      + intros t. rewrite P, P1. unfold copies. simpl. rewrite (teq_sym t t0).
        destruct (tile_equal t0 t); simpl; auto. now rewrite <- app_assoc.
      + intros t Mt. apply M. exact (add_marked q t0 o q1 t W E1 Mt).
  Qed.

  (** ** Histories, one tile at a time *)
  Notation ev := (ev Op).
  Notation enqueue := (enqueue Op T).
  Notation flush := (flush Op T micro).
  Notation read_row := (read_row Op T micro).
  Notation read := (read Op T micro).
  Notation run := (run Op T micro).

  (** operations drawn on [t], oldest first *)
  Definition drawn t (evs : list ev) : list Op :=
    flat_map (fun e => match e with Draw o ts => copies t o ts | _ => [] end) evs.
  (** the backend granted the write requests for [t] *)
  Definition granted t (e : ev) : Prop :=
    match e with Draw _ _ => True | Read canw _ _ => canw t = true | End can => can t = true end.

  Record good s t : Prop := { good_wf : wf (sf_q s); good_mark : marked (sf_q s) t }.

  Lemma read_row_spec : forall canw canr row s seen s' seen', wf (sf_q s) ->
    read_row canw canr row s seen = Ok (s', seen') ->
    wf (sf_q s') /\ q_dirty (sf_q s') = q_dirty (sf_q s) /\
    (forall t, canw t = true -> view s' t = view s t /\ (pend (sf_q s) t = [] -> pend (sf_q s') t = [])) /\
    exists new, seen' = seen ++ new /\
      (forall t v, In (t, v) new -> canw t = true -> Ok v = view s t) /\
      (forall t v, In (t, v) new -> In t row) /\
      ((forall t, In t row -> canr t = true) -> map fst new = row).
  Proof.
    induction row as [|t0 row IH]; intros s seen s' seen' W H; cbn [Plumb.read_row] in H.
    - inversion H; subst. split; [auto|]. split; [auto|]. split; [auto|]. exists []. rewrite app_nil_r.
      split; [auto|]. split; [|split]; simpl; auto; contradiction.
    - apply obind_ok in H. destruct H as (s1 & E1 & H).
      destruct (process_tile_view canw s t0 s1 W E1) as (W1 & D1 & V1 & P1 & _).
      destruct (canr t0) eqn:C0.
      + destruct (IH s1 _ s' seen' W1 H) as (W' & D' & V' & new & -> & N1 & N2 & N3).
        split; [auto|]. split; [congruence|]. split.
        * intros t C. destruct (V1 t C) as [A B]. destruct (V' t C) as [A' B']. split; [congruence|auto].
        * exists ((t0, sf_pix s1 t0) :: new). rewrite <- app_assoc. split; [auto|]. split; [|split].
          -- intros t v [E|I] C.
             ++ inversion E; subst. destruct (V1 t C) as [<- _]. unfold view. rewrite P1; auto.
             ++ rewrite (N1 t v I C). apply V1; auto.
          -- intros t v [E|I]; [inversion E; left; auto|right; eauto].
          -- intros A. simpl. f_equal. apply N3. intros; apply A; right; auto.
      + inversion H; subst. split; [auto|]. split; [auto|]. split; [auto|]. exists []. rewrite app_nil_r.
        split; [auto|]. split; [|split]; simpl; try contradiction.
        intros A. rewrite A in C0 by auto. discriminate.
  Qed.

  Lemma read_spec : forall canw canr rows s s' seen, wf (sf_q s) ->
    read canw canr rows s = Ok (s', seen) ->
    wf (sf_q s') /\ q_dirty (sf_q s') = q_dirty (sf_q s) /\
    (forall t, canw t = true -> view s' t = view s t /\ (pend (sf_q s) t = [] -> pend (sf_q s') t = [])) /\
    (forall t v, In (t, v) seen -> canw t = true -> Ok v = view s t) /\
    (forall t v, In (t, v) seen -> In t (concat rows)) /\
    ((forall t, In t (concat rows) -> canr t = true) -> map fst seen = concat rows).
  Proof.
    intros canw canr rows s s' seen W H. unfold read in H.
    assert (forall rows s seen s' seen', wf (sf_q s) ->
      ofold (fun a row => read_row canw canr row (fst a) (snd a)) rows (s, seen) = Ok (s', seen') ->
      wf (sf_q s') /\ q_dirty (sf_q s') = q_dirty (sf_q s) /\
      (forall t, canw t = true -> view s' t = view s t /\ (pend (sf_q s) t = [] -> pend (sf_q s') t = [])) /\
      exists new, seen' = seen ++ new /\
        (forall t v, In (t, v) new -> canw t = true -> Ok v = view s t) /\
        (forall t v, In (t, v) new -> In t (concat rows)) /\
        ((forall t, In t (concat rows) -> canr t = true) -> map fst new = concat rows)) as G.
    { clear. induction rows as [|row rows IH]; intros s seen s' seen' W H; cbn [ofold] in H.
      - inversion H; subst. split; [auto|]. split; [auto|]. split; [auto|]. exists []. rewrite app_nil_r.
        split; [auto|]. split; [|split]; simpl; auto; contradiction.
      - apply obind_ok in H. destruct H as ([s1 seen1] & E1 & H). simpl in E1.
        destruct (read_row_spec _ _ _ _ _ _ _ W E1) as (W1 & D1 & V1 & n1 & -> & A1 & B1 & C1).
        destruct (IH _ _ _ _ W1 H) as (W2 & D2 & V2 & n2 & -> & A2 & B2 & C2).
        split; [auto|]. split; [congruence|]. split.
        + intros t C. destruct (V1 t C) as [A B]. destruct (V2 t C) as [A' B']. split; [congruence|auto].
        + exists (n1 ++ n2). rewrite app_assoc. split; [auto|]. simpl. split; [|split].
          * intros t v I C. apply in_app_or in I. destruct I as [I|I]; [eauto|].
            rewrite (A2 t v I C). apply V1; auto.
          * intros t v I. apply in_or_app. apply in_app_or in I. destruct I; eauto.
          * intros A. rewrite map_app, C1, C2; auto; intros; apply A, in_or_app; auto. }
    destruct (G _ _ _ _ _ W H) as (W' & D' & V' & new & E & A & B & C). simpl in E. subst seen.
    repeat (split; auto).
  Qed.

  Lemma flush_spec : forall can s s', wf (sf_q s) -> flush can s = Ok s' ->
    wf (sf_q s') /\ q_dirty (sf_q s') = [] /\
    forall t, if in_dec tile_eq_dec t (q_dirty (sf_q s))
      then tile_result can t (pend (sf_q s) t) (sf_pix s t) = Ok (sf_pix s' t, pend (sf_q s') t)
      else sf_pix s' t = sf_pix s t /\ pend (sf_q s') t = pend (sf_q s) t.
  Proof.
    intros can s s' W H. unfold Plumb.flush in H.
    destruct (operation_queue_get_dirty_tiles (sf_q s)) as [ts q1] eqn:E.
    destruct (dirty_spec _ _ _ _ W E) as (W1 & D1 & S1 & N1 & I1 & P1).
    apply obind_ok in H. destruct H as (s2 & E2 & H). inversion H; subst; clear H. simpl.
    destruct (process_list_ok can (q_dirty q1) (mkSurf q1 (sf_pix s)) s2 W1 N1 E2) as (W2 & D2 & Q2). simpl in *.
    destruct (clear_spec Op (sf_q s2) W2) as (W3 & D3 & P3).
    split; [auto|]. split; [auto|]. intros t. specialize (Q2 t).
    rewrite P3. rewrite P1 in Q2.
    destruct (in_dec tile_eq_dec t (q_dirty q1)) as [I|I];
      destruct (in_dec tile_eq_dec t (q_dirty (sf_q s))) as [J|J]; auto; exfalso; apply I1 in I || apply I, I1; auto.
  Qed.

  Lemma flush_tile : forall can s s' t, good s t -> can t = true -> flush can s = Ok s' ->
    pend (sf_q s') t = [] /\ Ok (sf_pix s' t) = view s t.
  Proof.
    intros can s s' t [W M] C H. destruct (flush_spec can s s' W H) as (_ & _ & Q). specialize (Q t).
    unfold view. destruct (in_dec tile_eq_dec t (q_dirty (sf_q s))) as [I|I].
    - unfold tile_result in Q. rewrite C in Q. destruct (pend (sf_q s) t); [inversion Q; auto|].
      apply obind_ok in Q. destruct Q as (v & -> & Q). inversion Q; auto.
    - destruct Q as [Q1 Q2]. destruct (pend (sf_q s) t) eqn:E; [rewrite Q1, Q2; auto|].
      exfalso. apply I, M. congruence.
  Qed.

  (** everything the tile shows or will show = drawn operations, in order *)
  Lemma run_gen : forall evs s out s' out' t, good s t ->
    (forall e, In e evs -> granted t e) ->
    ofold (ev_step Op T micro) evs (s, out) = Ok (s', out') ->
    good s' t /\ view s' t = obind (view s t) (ofold (apply t) (drawn t evs)).
  Proof.
    induction evs as [|e evs IH]; intros s out s' out' t G A H; cbn [ofold] in H.
    - inversion H; subst. split; auto. simpl. destruct (view s' t); auto.
    - apply obind_ok in H. destruct H as ([s1 out1] & E1 & H).
      assert (good s1 t /\ view s1 t = obind (view s t)
                (ofold (apply t) (match e with Draw o ts => copies t o ts | _ => [] end))) as [G1 V1].
      { pose proof (A e (or_introl eq_refl)) as Ge. destruct G as [W M]. destruct e as [o ts|canw canr rows|can];
          cbn [Plumb.ev_step granted] in E1, Ge; apply obind_ok in E1.
        - destruct E1 as (s2 & E2 & E3). inversion E3; subst. unfold Plumb.enqueue in E2.
          apply obind_ok in E2. destruct E2 as (q2 & E2 & E4). inversion E4; subst; clear E4.
          destruct (enqueue_q o ts _ _ W E2) as (W2 & P2 & M2). split; [constructor; simpl; auto|].
          unfold view. simpl. rewrite P2, ofold_app. reflexivity.
        - destruct E1 as ([s2 seen] & E2 & E3). inversion E3; subst.
          destruct (read_spec _ _ _ _ _ _ W E2) as (W2 & D2 & V2 & _). destruct (V2 t Ge) as [V P].
          split; [constructor; auto|].
          + intros Hp. rewrite D2. apply M. intros X. apply Hp, P, X.
          + rewrite V. simpl. destruct (view s t); auto.
        - destruct E1 as (s2 & E2 & E3). inversion E3; subst.
          destruct (flush_tile can s s1 t (Build_good _ _ W M) Ge E2) as [P V].
          destruct (flush_spec can s s1 W E2) as (W2 & _).
          split; [constructor; auto; intros Hp; contradiction|].
          unfold view at 1. rewrite P. simpl. rewrite <- V. reflexivity. }
      destruct (IH s1 out1 s' out' t G1 (fun e I => A e (or_intror I)) H) as [G2 V2].
      split; auto. rewrite V2, V1. cbn [drawn flat_map].
      destruct (view s t); simpl; auto. rewrite ofold_app. reflexivity.
  Qed.

  Lemma run_out_length : forall evs s out s' out', ofold (ev_step Op T micro) evs (s, out) = Ok (s', out') ->
    exists new, out' = out ++ new /\ length new = length evs.
  Proof.
    induction evs as [|e evs IH]; intros s out s' out' H; cbn [ofold] in H.
    - inversion H; subst. exists []. rewrite app_nil_r; auto.
    - apply obind_ok in H. destruct H as ([s1 out1] & E1 & H).
      assert (exists x, out1 = out ++ [x]) as [x ->].
      { destruct e; cbn [Plumb.ev_step] in E1; apply obind_ok in E1.
        - destruct E1 as (? & _ & E). inversion E; eauto.
        - destruct E1 as ([? ?] & _ & E). inversion E; eauto.
        - destruct E1 as (? & _ & E). inversion E; eauto. }
      destruct (IH _ _ _ _ H) as (new & -> & L). exists (x :: new). rewrite <- app_assoc. simpl. auto.
  Qed.

  Definition fresh (p : tile -> T) : surf := mkSurf operation_queue_new p.
  Lemma good_fresh : forall p t, good (fresh p) t.
  Proof. intros. constructor; [apply wf_new|]. intros H. simpl in H. rewrite pend_new in H. contradiction. Qed.

  (** ** The parallel flush *)
  Notation worker_step := (worker_step Op T micro).
  Notation work := (work T).
  Notation par := (par Op T).

  (** what a worker in state [w] will make of its tile *)
  Definition outcome_of can t (w : work) (pd : list Op) (v : T) : outcome (T * list Op) :=
    match w with
    | Start => tile_result can t pd v
    | Busy ms => let* v := steps T ms v in let* v := ofold (apply t) pd v in Ok (v, [])
    | Done => Ok (v, pd)
    end.
  Definition tile_state (p : par) t : list Op * T := (pend (sf_q (p_surf p)) t, sf_pix (p_surf p) t).

  Lemma upd_nth_error : forall A (l : list A) i j a,
    nth_error (upd l i a) j = if Nat.eqb i j then (match nth_error l i with Some _ => Some a | None => None end) else nth_error l j.
  Proof.
    induction l as [|b l IH]; intros [|i] [|j] a; simpl; auto.
    destruct (Nat.eqb i j); auto.
  Qed.
  Lemma map_fst_upd : forall (l : list (tile * work)) i t w w', nth_error l i = Some (t, w) ->
    map fst (upd l i (t, w')) = map fst l.
  Proof.
    induction l as [|[a b] l IH]; intros [|i] t w w' H; simpl in *; try discriminate.
    - inversion H; auto.
    - f_equal. eauto.
  Qed.

  Record pinv (ts : list tile) (p : par) : Prop := {
    pi_wf : wf (sf_q (p_surf p));
    pi_ts : map fst (p_work p) = ts;
    pi_nd : NoDup ts
  }.

  (** the result each worker is heading for, and the untouched tiles *)
  Definition heading can (p : par) t : outcome (T * list Op) :=
    match find (fun x => tile_equal (fst x) t) (p_work p) with
    | Some (_, w) => outcome_of can t w (pend (sf_q (p_surf p)) t) (sf_pix (p_surf p) t)
    | None => Ok (sf_pix (p_surf p) t, pend (sf_q (p_surf p)) t)
    end.

  Lemma find_nth : forall (l : list (tile * work)) i t w, NoDup (map fst l) -> nth_error l i = Some (t, w) ->
    find (fun x => tile_equal (fst x) t) l = Some (t, w).
  Proof.
    induction l as [|[a b] l IH]; intros [|i] t w N H; simpl in *; try discriminate.
    - inversion H; subst. rewrite teq_refl. auto.
    - inversion N; subst. rewrite teq_neq; eauto.
      intros ->. apply H2. apply nth_error_In in H. apply (in_map fst) in H. auto.
  Qed.
  Lemma find_upd_other : forall (l : list (tile * work)) i t w w' t', nth_error l i = Some (t, w) -> t <> t' ->
    find (fun x => tile_equal (fst x) t') (upd l i (t, w')) = find (fun x => tile_equal (fst x) t') l.
  Proof.
    induction l as [|[a b] l IH]; intros [|i] t w w' t' H N; simpl in *; try discriminate.
    - inversion H; subst. rewrite teq_neq; auto.
    - destruct (tile_equal a t'); auto. eapply IH; eauto.
  Qed.

  (** one step of worker [i] on tile [t]: new tile state, new worker state *)
  Lemma worker_step_spec : forall can ts p i t w, pinv ts p -> nth_error (p_work p) i = Some (t, w) -> w <> Done ->
    match outcome_of can t w (pend (sf_q (p_surf p)) t) (sf_pix (p_surf p) t) with
    | Ok r => exists p' w' v l, worker_step can p i = Ok p' /\ p_work p' = upd (p_work p) i (t, w') /\
        sonly (p_surf p) (p_surf p') t v l /\ outcome_of can t w' l v = Ok r
    | r => worker_step can p i = (match r with UB => UB | _ => Abort end) \/
           exists p' w' v l, worker_step can p i = Ok p' /\ p_work p' = upd (p_work p) i (t, w') /\
             sonly (p_surf p) (p_surf p') t v l /\ outcome_of can t w' l v = r
    end.
  Proof.
    intros can ts p i t w [W Ts Nd] N Nw. unfold Plumb.worker_step. rewrite N.
    set (s := p_surf p) in *.
    assert (forall t', (if tile_equal t t' then sf_pix s t else sf_pix s t') = sf_pix s t') as Id.
    { intros t'. destruct (tile_equal t t') eqn:X; auto. apply tile_equal_spec in X. now subst. }
    destruct (pop_only (sf_q s) t W) as (q1 & E1 & O1).
    destruct w as [|[|f ms]|]; [| | |congruence].
    - rewrite E1. simpl. unfold tile_result.
      assert (sonly s (mkSurf q1 (sf_pix s)) t (sf_pix s t) (tl (pend (sf_q s) t))) as So.
      { constructor; simpl; auto. }
      destruct (pend (sf_q s) t) as [|o l]; simpl in *.
      + do 4 eexists. split; [reflexivity|]. split; [reflexivity|]. split; [exact So|reflexivity].
      + destruct (can t).
        * assert (forall x, outcome_of can t (Busy (micro t o)) l (sf_pix s t) = x ->
                   exists p' w' v l0, Ok (mkPar (mkSurf q1 (sf_pix s)) (upd (p_work p) i (t, Busy (micro t o)))) = Ok p' /\
                     p_work p' = upd (p_work p) i (t, w') /\ sonly s (p_surf p') t v l0 /\ outcome_of can t w' l0 v = x) as K.
          { intros x Hx. do 4 eexists. split; [reflexivity|]. split; [reflexivity|]. split; [exact So|exact Hx]. }
          unfold outcome_of in K. unfold Plumb.apply at 1.
          destruct (steps T (micro t o) (sf_pix s t)) as [v1| |]; simpl in *; auto.
          destruct (ofold (apply t) l v1); simpl in *; auto.
        * do 4 eexists. split; [reflexivity|]. split; [reflexivity|]. split; [exact So|reflexivity].
    - rewrite E1. simpl.
      assert (sonly s (mkSurf q1 (sf_pix s)) t (sf_pix s t) (tl (pend (sf_q s) t))) as So.
      { constructor; simpl; auto. }
      destruct (pend (sf_q s) t) as [|o l]; simpl in *.
      + do 4 eexists. split; [reflexivity|]. split; [reflexivity|]. split; [exact So|reflexivity].
      + assert (forall x, outcome_of can t (Busy (micro t o)) l (sf_pix s t) = x ->
                   exists p' w' v l0, Ok (mkPar (mkSurf q1 (sf_pix s)) (upd (p_work p) i (t, Busy (micro t o)))) = Ok p' /\
                     p_work p' = upd (p_work p) i (t, w') /\ sonly s (p_surf p') t v l0 /\ outcome_of can t w' l0 v = x) as K.
        { intros x Hx. do 4 eexists. split; [reflexivity|]. split; [reflexivity|]. split; [exact So|exact Hx]. }
        unfold outcome_of in K. unfold Plumb.apply at 1.
        destruct (steps T (micro t o) (sf_pix s t)) as [v1| |]; simpl in *; auto.
        destruct (ofold (apply t) l v1); simpl in *; auto.
    - unfold outcome_of at 1. unfold steps at 1. cbn [ofold].
      destruct (f (sf_pix s t)) as [v1| |]; simpl; auto.
      assert (sonly s (mkSurf (sf_q s) (set_pix (sf_pix s) t v1)) t v1 (pend (sf_q s) t)) as So.
      { constructor; simpl; auto. constructor; auto. intros t'.
        destruct (tile_equal t t') eqn:X; auto. apply tile_equal_spec in X. now subst. }
      assert (forall x, outcome_of can t (Busy ms) (pend (sf_q s) t) v1 = x ->
                   exists p' w' v l0, Ok (mkPar (mkSurf (sf_q s) (set_pix (sf_pix s) t v1)) (upd (p_work p) i (t, Busy ms))) = Ok p' /\
                     p_work p' = upd (p_work p) i (t, w') /\ sonly s (p_surf p') t v l0 /\ outcome_of can t w' l0 v = x) as K.
      { intros x Hx. do 4 eexists. split; [reflexivity|]. split; [reflexivity|]. split; [exact So|exact Hx]. }
      unfold outcome_of in K. unfold steps in K.
      destruct (ofold (fun v f => f v) ms v1) as [v2| |]; simpl in *; auto.
      destruct (ofold (apply t) (pend (sf_q s) t) v2); simpl in *; auto.
  Qed.

  (** if every worker is heading for success, so it stays *)
  Lemma worker_step_heading : forall can ts p i, pinv ts p ->
    (forall t, is_ok (heading can p t)) ->
    exists p', worker_step can p i = Ok p' /\ pinv ts p' /\ q_dirty (sf_q (p_surf p')) = q_dirty (sf_q (p_surf p)) /\
      forall t, heading can p' t = heading can p t.
  Proof.
    intros can ts p i I H.
    destruct (nth_error (p_work p) i) as [[t w]|] eqn:N.
    2: { exists p. unfold Plumb.worker_step. rewrite N. split; [reflexivity|]. split; [assumption|]. split; reflexivity. }
    assert (w = Done \/ w <> Done) as [->|Nw] by (destruct w; auto; right; discriminate).
    { exists p. unfold Plumb.worker_step. rewrite N. split; [reflexivity|]. split; [assumption|]. split; reflexivity. }
    pose proof (worker_step_spec can ts p i t w I N Nw) as S.
    destruct I as [W Ts Nd].
    assert (heading can p t = outcome_of can t w (pend (sf_q (p_surf p)) t) (sf_pix (p_surf p) t)) as Ht.
    { unfold heading. rewrite (find_nth _ i t w); auto. congruence. }
    destruct (H t) as [r Hr]. rewrite Ht in Hr. rewrite Hr in S.
    destruct S as (p' & w' & v & l & E & Ew & [O P] & R).
    exists p'. split; [auto|]. split; [|split; [apply O|]].
    - constructor; [apply O| |auto]. rewrite Ew. erewrite map_fst_upd; eauto.
    - intros t'. destruct (tile_eq_dec t t') as [<-|Nt].
      + rewrite Ht, Hr. unfold heading. rewrite Ew, (find_nth _ i t w').
        * rewrite (only_pend _ _ _ _ O), P, teq_refl. auto.
        * erewrite map_fst_upd; eauto. congruence.
        * rewrite upd_nth_error, Nat.eqb_refl, N. auto.
      + unfold heading. rewrite Ew, (find_upd_other _ i t w); auto.
        rewrite (only_pend _ _ _ _ O), P, teq_neq; auto.
  Qed.

  Lemma sched_heading : forall can ts sched p, pinv ts p ->
    (forall t, is_ok (heading can p t)) ->
    exists p', ofold (worker_step can) sched p = Ok p' /\ pinv ts p' /\
      q_dirty (sf_q (p_surf p')) = q_dirty (sf_q (p_surf p)) /\ forall t, heading can p' t = heading can p t.
  Proof.
    induction sched as [|i sched IH]; intros p I H; cbn [ofold].
    - exists p. split; [reflexivity|]. split; [assumption|]. split; reflexivity.
    - destruct (worker_step_heading can ts p i I H) as (p1 & E1 & I1 & D1 & H1). rewrite E1. simpl.
      destruct (IH p1 I1) as (p2 & E2 & I2 & D2 & H2).
      + intros t. rewrite H1. auto.
      + exists p2. split; [auto|]. split; [auto|]. split; [congruence|]. intros. rewrite H2. auto.
  Qed.

  Lemma worker_step_keeps_heading : forall can ts p i p', pinv ts p -> worker_step can p i = Ok p' ->
    pinv ts p' /\ forall t, heading can p' t = heading can p t.
  Proof.
    intros can ts p i p' I E.
    destruct (nth_error (p_work p) i) as [[t w]|] eqn:N.
    2: { unfold Plumb.worker_step in E. rewrite N in E. inversion E; subst. auto. }
    assert (w = Done \/ w <> Done) as [->|Nw] by (destruct w; auto; right; discriminate).
    { unfold Plumb.worker_step in E. rewrite N in E. inversion E; subst. auto. }
    pose proof (worker_step_spec can ts p i t w I N Nw) as S.
    destruct I as [W Ts Nd].
    assert (heading can p t = outcome_of can t w (pend (sf_q (p_surf p)) t) (sf_pix (p_surf p) t)) as Ht.
    { unfold heading. rewrite (find_nth _ i t w); auto. congruence. }
    rewrite <- Ht in S.
    assert (exists p' w' v l, worker_step can p i = Ok p' /\ p_work p' = upd (p_work p) i (t, w') /\
             sonly (p_surf p) (p_surf p') t v l /\ outcome_of can t w' l v = heading can p t) as S'.
    { destruct (heading can p t).
      - exact S.
      - destruct S as [S|S]; [rewrite S in E; discriminate|exact S].
      - destruct S as [S|S]; [rewrite S in E; discriminate|exact S]. }
    clear S. destruct S' as (p1 & w' & v & l & E1 & Ew & [O P] & R).
    rewrite E1 in E. inversion E; subst p1. split.
    - constructor; [apply O| |auto]. rewrite Ew. erewrite map_fst_upd; eauto.
    - intros t'. destruct (tile_eq_dec t t') as [<-|Nt].
      + rewrite <- R. unfold heading. rewrite Ew, (find_nth _ i t w').
        * rewrite (only_pend _ _ _ _ O), P, teq_refl. auto.
        * erewrite map_fst_upd; eauto. congruence.
        * rewrite upd_nth_error, Nat.eqb_refl, N. auto.
      + unfold heading. rewrite Ew, (find_upd_other _ i t w); auto.
        rewrite (only_pend _ _ _ _ O), P, teq_neq; auto.
  Qed.

  Lemma sched_heading_ok : forall can ts sched p p', pinv ts p -> ofold (worker_step can) sched p = Ok p' ->
    forall t, heading can p' t = heading can p t.
  Proof.
    induction sched as [|i sched IH]; intros p p' I H t; cbn [ofold] in H.
    - inversion H; auto.
    - apply obind_ok in H. destruct H as (p1 & E1 & H).
      destruct (worker_step_keeps_heading can ts p i p1 I E1) as [I1 H1]. rewrite (IH p1 p' I1 H t). auto.
  Qed.

  Lemma done_heading : forall can p t, all_done Op T p ->
    heading can p t = Ok (sf_pix (p_surf p) t, pend (sf_q (p_surf p)) t).
  Proof.
    intros can p t D. unfold heading. destruct (find _ _) as [[t' w]|] eqn:E; auto.
    apply find_some in E. destruct E as [I _]. rewrite (D _ _ I). reflexivity.
  Qed.

  Lemma par_start_inv : forall s, wf (sf_q s) ->
    exists ts, pinv ts (par_start Op T s) /\ q_dirty (sf_q (p_surf (par_start Op T s))) = ts /\
      (forall t, In t ts <-> In t (q_dirty (sf_q s))) /\
      forall can t, heading can (par_start Op T s) t =
        if in_dec tile_eq_dec t (q_dirty (sf_q s)) then tile_result can t (pend (sf_q s) t) (sf_pix s t)
        else Ok (sf_pix s t, pend (sf_q s) t).
  Proof.
    intros s W. unfold par_start.
    destruct (operation_queue_get_dirty_tiles (sf_q s)) as [ts q1] eqn:E.
    destruct (dirty_spec _ _ _ _ W E) as (W1 & D1 & S1 & N1 & I1 & P1).
    exists ts. simpl. split; [constructor; simpl; auto|].
    - rewrite map_map, map_id. auto.
    - split; [auto|]. split; [auto|]. intros can t. unfold heading. simpl. rewrite P1.
      destruct (find _ _) as [[t' w]|] eqn:F.
      + apply find_some in F. destruct F as [F1 F2]. apply in_map_iff in F1. destruct F1 as (x & Ex & F1).
        inversion Ex; subst. simpl in F2. apply tile_equal_spec in F2. subst t'.
        destruct (in_dec tile_eq_dec t (q_dirty (sf_q s))) as [_|J]; [reflexivity|]. exfalso. apply J, I1; auto.
      + destruct (in_dec tile_eq_dec t (q_dirty (sf_q s))) as [J|J]; [|auto].
        apply I1 in J. eapply find_none in F; [|apply in_map_iff; exists t; split; [reflexivity|exact J]].
        simpl in F. rewrite teq_refl in F. discriminate.
  Qed.

  (** sequential flush succeeds iff every tile does *)
  Lemma flush_ok_iff : forall can s, wf (sf_q s) ->
    (is_ok (flush can s) <-> forall t, is_ok (heading can (par_start Op T s) t)).
  Proof.
    intros can s W. destruct (par_start_inv s W) as (ts & _ & _ & _ & Hd). split.
    - intros [s' H] t. rewrite Hd. destruct (flush_spec can s s' W H) as (_ & _ & Q). specialize (Q t).
      destruct (in_dec tile_eq_dec t (q_dirty (sf_q s))); [rewrite Q|]; eexists; reflexivity.
    - intros A. unfold Plumb.flush.
      destruct (operation_queue_get_dirty_tiles (sf_q s)) as [ts' q1] eqn:E.
      destruct (dirty_spec _ _ _ _ W E) as (W1 & D1 & S1 & N1 & I1 & P1).
      destruct (process_list_total can ts' (mkSurf q1 (sf_pix s)) W1 N1) as [s2 E2].
      + intros t I. simpl. rewrite P1. specialize (A t). rewrite Hd in A.
        destruct (in_dec tile_eq_dec t (q_dirty (sf_q s))) as [_|J]; [auto|]. exfalso. apply J, I1; auto.
      + rewrite E2. eexists; reflexivity.
  Qed.

  (** ** Every schedule can be completed *)
  Definition cost_ops t (pd : list Op) : nat := fold_right (fun o n => S (length (micro t o) + n)) 1%nat pd.
  Definition cost t (w : work) (pd : list Op) : nat :=
    match w with Start => cost_ops t pd | Busy ms => (length ms + cost_ops t pd)%nat | Done => 0%nat end.

  Definition total (p : par) : nat :=
    fold_right (fun x n => (cost (fst x) (snd x) (pend (sf_q (p_surf p)) (fst x)) + n)%nat) 0%nat (p_work p).

  Lemma cost_ops_pos : forall t pd, (0 < cost_ops t pd)%nat.
  Proof. destruct pd; simpl; lia. Qed.

  Lemma step_cost : forall can ts p i t w p', pinv ts p -> nth_error (p_work p) i = Some (t, w) -> w <> Done ->
    worker_step can p i = Ok p' ->
    exists w' l, p_work p' = upd (p_work p) i (t, w') /\
      (forall t', pend (sf_q (p_surf p')) t' = if tile_equal t t' then l else pend (sf_q (p_surf p)) t') /\
      (cost t w' l < cost t w (pend (sf_q (p_surf p)) t))%nat.
  Proof.
    intros can ts p i t w p' [W Ts Nd] N Nw H. unfold Plumb.worker_step in H. rewrite N in H.
    destruct (pop_only (sf_q (p_surf p)) t W) as (q1 & E1 & O1).
    destruct w as [|[|f ms]|]; [| | |congruence].
    - rewrite E1 in H. simpl in H. inversion H; subst; clear H. cbn [p_work p_surf sf_q].
      do 2 eexists. split; [reflexivity|]. split; [apply O1|].
      destruct (pend (sf_q (p_surf p)) t) as [|o l]; simpl; [lia|]. destruct (can t); simpl; lia.
    - rewrite E1 in H. simpl in H. inversion H; subst; clear H. cbn [p_work p_surf sf_q].
      do 2 eexists. split; [reflexivity|]. split; [apply O1|].
      destruct (pend (sf_q (p_surf p)) t) as [|o l]; simpl; lia.
    - apply obind_ok in H. destruct H as (v & _ & H). inversion H; subst; clear H. cbn [p_work p_surf sf_q].
      exists (Busy ms), (pend (sf_q (p_surf p)) t). split; [reflexivity|]. split; [|simpl; lia].
      intros t'. destruct (tile_equal t t') eqn:X; auto. apply tile_equal_spec in X. now subst.
  Qed.

  Lemma fold_cost_upd : forall (c c' : tile -> work -> nat) (l : list (tile * work)) i t w w',
    NoDup (map fst l) -> nth_error l i = Some (t, w) -> (c' t w' < c t w)%nat ->
    (forall t' w', t' <> t -> c' t' w' = c t' w') ->
    (fold_right (fun x n => (c' (fst x) (snd x) + n)%nat) 0%nat (upd l i (t, w')) <
     fold_right (fun x n => (c (fst x) (snd x) + n)%nat) 0%nat l)%nat.
  Proof.
    induction l as [|[a b] l IH]; intros [|i] t w w' Nd N L E; simpl in *; try discriminate.
    - inversion N; subst. inversion Nd as [|? ? Nd1 Nd2]; subst.
      assert (fold_right (fun x n => (c' (fst x) (snd x) + n)%nat) 0%nat l =
              fold_right (fun x n => (c (fst x) (snd x) + n)%nat) 0%nat l) as ->; [|lia].
      clear - Nd1 E. induction l as [|[x y] l IH]; simpl in *; auto.
      rewrite IH by tauto. rewrite E; auto.
    - inversion Nd as [|? ? Nd1 Nd2]; subst. rewrite E.
      + specialize (IH i t w w' Nd2 N L E). lia.
      + intros ->. apply Nd1. apply nth_error_In in N. apply (in_map fst) in N. auto.
  Qed.

  Lemma can_finish : forall can ts p, pinv ts p -> (forall t, is_ok (heading can p t)) ->
    exists more p', ofold (worker_step can) more p = Ok p' /\ all_done Op T p'.
  Proof.
    intros can ts p. remember (total p) as n eqn:En. revert p En.
    induction n as [n IH] using lt_wf_ind. intros p En I H.
    assert (all_done Op T p \/ exists i t w, nth_error (p_work p) i = Some (t, w) /\ w <> Done) as [D|(i & t & w & N & Nw)].
    { unfold all_done. generalize (p_work p) as l. clear. induction l as [|[t w] l IH].
      - left. intros t w [].
      - destruct w.
        + right. exists 0%nat, t, Start. split; [reflexivity|discriminate].
        + right. exists 0%nat, t, (Busy ms). split; [reflexivity|discriminate].
        + destruct IH as [IH|(i & t' & w & E & Nw)].
          * left. intros t' w [E|E]; [inversion E; auto|eauto].
          * right. exists (S i), t', w. auto. }
    - exists [], p. split; auto.
    - destruct (worker_step_heading can ts p i I H) as (p1 & E1 & I1 & _ & H1).
      destruct (step_cost can ts p i t w p1 I N Nw E1) as (w' & l & Ew & P & C).
      destruct (IH (total p1)) with (p := p1) as (more & p2 & E2 & D2); auto.
      + subst n. unfold total. rewrite Ew.
        apply (fold_cost_upd (fun t w => cost t w (pend (sf_q (p_surf p)) t))
                             (fun t w => cost t w (pend (sf_q (p_surf p1)) t))) with (w := w); auto.
        * destruct I as [_ Ts Nd]. congruence.
        * rewrite P, teq_refl. auto.
        * intros t' w0 Nt. rewrite P, teq_neq; auto.
      + intros t'. rewrite H1. auto.
      + exists (i :: more), p2. cbn [ofold]. rewrite E1. simpl. auto.
  Qed.
End P.
