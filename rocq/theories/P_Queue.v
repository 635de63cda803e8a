(** Properties C01, C02, C03: the operation queue.

    Specification vocabulary: a *trace* is the list of calls made on a fresh
    queue, each with the result the caller saw.  Everything below speaks about
    calls and results only. *)
From Verif Require Import Base Queue QueueProofs.
From Coq Require Import ZifyBool.

Notation event Op := (qcall Op * qresult Op)%type.

Section Spec.
  Variable Op : Type.
  Notation event := (event Op).

  (** payloads handed to the queue for tile [t], oldest first *)
  Fixpoint added (t : tile) (tr : list event) : list Op :=
    match tr with
    | [] => []
    | (QAdd t' o, _) :: tr' =>
        if tile_eq_dec t' t then o :: added t tr' else added t tr'
    | _ :: tr' => added t tr'
    end.

  (** payloads given back by pop for tile [t], oldest first *)
  Fixpoint delivered (t : tile) (tr : list event) : list Op :=
    match tr with
    | [] => []
    | (QPop t', ROp (Some o)) :: tr' =>
        if tile_eq_dec t' t then o :: delivered t tr' else delivered t tr'
    | _ :: tr' => delivered t tr'
    end.

  (** [tr] is what a client observes when making the calls on a new queue *)
  Definition observed (tr : list event) : Prop :=
    exists q, qrun operation_queue_new (map fst tr) = Ok (map snd tr, q).

  (** the client clears the dirty list only when everything was delivered *)
  Definition clears_when_drained (tr : list event) : Prop :=
    forall tr1 r tr2, tr = tr1 ++ (QClear, r) :: tr2 ->
      forall t, added t tr1 = delivered t tr1.

  (** a tile was drawn on since the list was last cleared *)
  Definition added_since_clear (t : tile) (tr : list event) : Prop :=
    exists a o r b, tr = a ++ (QAdd t o, r) :: b /\ forall r', ~ In (QClear, r') b.

  (** no tile is drawn on again after one of its dabs was popped, until the
      dirty list is cleared (an atomic operation without colour reads) *)
  Definition no_redraw_after_pop (cs : list (qcall Op)) : Prop :=
    forall a b c t o, cs = a ++ QPop t :: b ++ QAdd t o :: c -> In QClear b.

  Definition tiles_within (lim : Z) (cs : list (qcall Op)) : Prop :=
    forall t o, In (QAdd t o) cs -> - lim <= fst t < lim /\ - lim <= snd t < lim.
End Spec.
Arguments added {Op}. Arguments delivered {Op}. Arguments observed {Op}.
Arguments clears_when_drained {Op}. Arguments added_since_clear {Op}.
Arguments no_redraw_after_pop {Op}. Arguments tiles_within {Op}.

Section Lemmas.
  Variable Op : Type.
  Notation event := (event Op).

  Lemma added_app : forall t (a b : list event), added t (a ++ b) = added t a ++ added t b.
  Proof.
    induction a as [|[c r] a IH]; intros; simpl; auto.
    destruct c; auto. destruct (tile_eq_dec t0 t); simpl; rewrite IH; auto.
  Qed.

  Lemma delivered_app : forall t (a b : list event),
    delivered t (a ++ b) = delivered t a ++ delivered t b.
  Proof.
    induction a as [|[c r] a IH]; intros; simpl; auto.
    destruct c; auto. destruct r as [| [o|] |]; auto.
    destruct (tile_eq_dec t0 t); simpl; rewrite IH; auto.
  Qed.

  Lemma qrun_app : forall (a b : list (qcall Op)) q,
    qrun q (a ++ b) = let* x := qrun q a in let* y := qrun (snd x) b in Ok (fst x ++ fst y, snd y).
  Proof.
    induction a; intros; simpl.
    - destruct (qrun q b) as [[? ?]| |]; auto.
    - destruct (qstep q a) as [[r q1]| |]; simpl; auto. rewrite IHa.
      destruct (qrun q1 a0) as [[rs q2]| |]; simpl; auto.
      destruct (qrun q2 b) as [[rs' q3]| |]; simpl; auto.
  Qed.

  Lemma qrun_length : forall (cs : list (qcall Op)) q rs q',
    qrun q cs = Ok (rs, q') -> length rs = length cs.
  Proof.
    induction cs; simpl; intros.
    - inversion H; auto.
    - apply obind_ok in H. destruct H as ([r q1] & E1 & H).
      apply obind_ok in H. destruct H as ([rs1 q2] & E2 & H). inversion H; subst. simpl. f_equal.
      eapply IHcs; eauto.
  Qed.

  Lemma observed_app : forall (a b : list event), observed (a ++ b) -> observed a.
  Proof.
    intros a b (q & H). rewrite !map_app, qrun_app in H.
    apply obind_ok in H. destruct H as ([rs q1] & E1 & H).
    apply obind_ok in H. destruct H as ([rs2 q2] & E2 & H). cbn [fst snd] in *.
    exists q1. rewrite E1. f_equal. f_equal.
    inversion H. apply qrun_length in E1. rewrite map_length in E1.
    assert (firstn (length rs) (rs ++ rs2) = firstn (length rs) (map snd a ++ map snd b)) as F by congruence.
    rewrite firstn_app, Nat.sub_diag, firstn_all, firstn_O, app_nil_r in F.
    rewrite E1 in F. rewrite <- (map_length snd a) in F.
    rewrite firstn_app, Nat.sub_diag, firstn_all, firstn_O, app_nil_r in F. auto.
  Qed.

  (** state after an observed trace *)
  Lemma observed_state : forall (tr : list event) q,
    qrun operation_queue_new (map fst tr) = Ok (map snd tr, q) ->
    wf q /\ forall t, added t tr = delivered t tr ++ pend q t.
  Proof.
    intros tr. induction tr as [|e tr IH] using rev_ind; intros q H.
    - simpl in H. inversion H; subst. split; [apply wf_new|]. intros. simpl. now rewrite pend_new.
    - rewrite !map_app, qrun_app in H.
      apply obind_ok in H. destruct H as ([rs q1] & E1 & H).
      apply obind_ok in H. destruct H as ([rs2 q2] & E2 & H). cbn [fst snd] in *.
      assert (map snd tr = rs /\ rs2 = [snd e]) as [<- ->].
      { inversion H.
        apply obind_ok in E2. destruct E2 as ([r3 q3] & E3 & E4). simpl in E4. inversion E4; subst.
        apply app_inj_tail in H1. destruct H1; subst; auto. }
      assert (q2 = q) by (inversion H; auto). subst q2.
      destruct (IH _ E1) as (W1 & A1).
      apply obind_ok in E2. destruct E2 as ([r3 q3] & E3 & E4). simpl in E4. inversion E4; subst.
      split; [eapply qstep_wf; eauto|].
      intros t. rewrite added_app, delivered_app, A1.
      destruct e as [c r]. simpl in *.
      destruct c; simpl in E3.
      + apply obind_ok in E3. destruct E3 as (q4 & E5 & E6). inversion E6; subst.
        destruct (add_spec _ _ _ _ _ W1 E5) as (_ & P & _). rewrite P.
        simpl. destruct (tile_eq_dec t0 t) as [->|N].
        * rewrite (proj2 (tile_equal_spec t t) eq_refl). rewrite app_nil_r, app_assoc. auto.
        * destruct (tile_equal t0 t) eqn:X; [apply tile_equal_spec in X; congruence|].
          rewrite !app_nil_r. auto.
      + destruct (pop_spec _ q1 t0 W1) as (q4 & E5 & W4 & _ & _ & P). rewrite E5 in E3. simpl in E3.
        inversion E3; subst. rewrite P. simpl.
        destruct (pend q1 t0) as [|o l] eqn:Ep; simpl.
        * destruct (tile_equal t0 t) eqn:X; [apply tile_equal_spec in X; subst; rewrite Ep|];
            simpl; rewrite ?app_nil_r; auto.
        * destruct (tile_eq_dec t0 t) as [->|N].
          -- rewrite (proj2 (tile_equal_spec t t) eq_refl). rewrite Ep. simpl.
             rewrite app_nil_r, <- app_assoc. auto.
          -- destruct (tile_equal t0 t) eqn:X; [apply tile_equal_spec in X; congruence|].
             rewrite !app_nil_r. auto.
      + rewrite peek_first_spec in E3; auto. simpl in E3. inversion E3; subst. simpl. rewrite !app_nil_r. auto.
      + rewrite peek_last_spec in E3; auto. simpl in E3. inversion E3; subst. simpl. rewrite !app_nil_r. auto.
      + inversion E3; subst. simpl. rewrite !app_nil_r. auto.
      + inversion E3; subst. simpl. rewrite !app_nil_r. auto.
  Qed.

  (** splitting an observed trace at an event *)
  Lemma observed_split : forall (tr1 : list event) c r tr2,
    observed (tr1 ++ (c, r) :: tr2) ->
    exists q1 q2, qrun operation_queue_new (map fst tr1) = Ok (map snd tr1, q1) /\ wf q1 /\
      (forall t, added t tr1 = delivered t tr1 ++ pend q1 t) /\ qstep q1 c = Ok (r, q2).
  Proof.
    intros tr1 c r tr2 H.
    assert (observed (tr1 ++ [(c, r)])) as H'.
    { apply observed_app with tr2. rewrite <- app_assoc. auto. }
    pose proof (observed_app _ _ H') as (q1 & E1).
    destruct (observed_state _ _ E1) as (W1 & A1).
    destruct H' as (q2 & E2). rewrite !map_app, qrun_app, E1 in E2. simpl in E2.
    apply obind_ok in E2. destruct E2 as ([rs3 q3] & E3 & E4). simpl in *.
    apply obind_ok in E3. destruct E3 as ([r5 q5] & E5 & E6). simpl in *.
    inversion E6; subst; clear E6. inversion E4; subst; clear E4. apply app_inj_tail in H1. destruct H1; subst.
    exists q1, q2. auto.
  Qed.
End Lemmas.

(** ** C01 *)

(** At every point of every history, for every tile, what was delivered is a
    prefix of what was added: [added = delivered ++ rest]; pop and peek_first
    return the first element of [rest], peek_last its last one, and NULL only if
    [rest] is empty.  No bound on coordinates or history is needed: the
    hypothesis is just that the calls were made and returned. *)
Theorem C01_exactly_once_in_order :
  forall (Op : Type) (tr1 tr2 : list (event Op)) c r,
  observed (tr1 ++ (c, r) :: tr2) ->
  forall t, exists rest,
    added t tr1 = delivered t tr1 ++ rest /\
    (c = QPop t -> r = ROp (hd_error rest)) /\
    (c = QPeekFirst t -> r = ROp (hd_error rest)) /\
    (c = QPeekLast t -> r = ROp (hd_error (rev rest))).
Proof.
  intros Op tr1 tr2 c r H t.
  destruct (observed_split _ _ _ _ _ H) as (q1 & q2 & E1 & W1 & A1 & S).
  exists (pend q1 t). split; [auto|]. split; [|split]; intros ->; simpl in S.
  - destruct (pop_spec _ q1 t W1) as (q4 & E5 & _). rewrite E5 in S. simpl in S. inversion S; auto.
  - rewrite peek_first_spec in S; auto. simpl in S. inversion S; auto.
  - rewrite peek_last_spec in S; auto. simpl in S. inversion S; auto.
Qed.

(** ... and every history can be continued by draining a tile: popping returns
    exactly the remaining payloads in order, then NULL. *)
Theorem C01_drain_delivers_rest :
  forall (Op : Type) (tr : list (event Op)) (t : tile),
  observed tr ->
  exists rest, added t tr = delivered t tr ++ rest /\
    observed (tr ++ map (fun o => (QPop t, ROp (Some o))) rest ++ [(QPop t, ROp None)]).
Proof.
  intros Op tr t (q & H). destruct (observed_state _ _ _ H) as (W & A).
  exists (pend q t). split; auto. unfold observed.
  rewrite !map_app, qrun_app, H. simpl.
  assert (forall n (q : queue Op), wf q -> length (pend q t) = n -> exists q' : queue Op,
     let evs := map (fun o : Op => (QPop t, ROp (Some o)) : event Op) (pend q t) ++ [(QPop t, ROp None)] in
     qrun q (map fst evs) = Ok (map snd evs, q')) as G.
  { clear. induction n; intros q W L.
    - destruct (pend q t) eqn:E; [|discriminate]. simpl.
      destruct (pop_spec _ q t W) as (q4 & E5 & _). rewrite E in E5. rewrite E5. simpl.
      eexists; reflexivity.
    - destruct (pend q t) as [|o l] eqn:E; [discriminate|]. simpl.
      destruct (pop_spec _ q t W) as (q4 & E5 & W4 & _ & _ & P). rewrite E in E5. rewrite E5. simpl.
      specialize (P t). rewrite (proj2 (tile_equal_spec t t) eq_refl), E in P. simpl in P.
      destruct (IHn q4 W4) as (q' & E'); [rewrite P; simpl in L; lia|].
      rewrite P in E'. rewrite E'. simpl. eexists; reflexivity. }
  destruct (G _ q W eq_refl) as (q' & E'). cbv zeta in E'. rewrite !map_app in E'. simpl in E'. rewrite E'. simpl.
  exists q'. reflexivity.
Qed.

(** A history with growth (tile (15,-7) is outside the initial 20x20 map). *)
Example C01_example :
  observed
    [ (QAdd (0, 0) 1%nat, RUnit); (QAdd (15, -7) 2%nat, RUnit); (QAdd (0, 0) 3%nat, RUnit);
      (QPop (0, 0), ROp (Some 1%nat)); (QPeekLast (0, 0), ROp (Some 3%nat));
      (QPop (15, -7), ROp (Some 2%nat)); (QPop (15, -7), ROp None);
      (QPop (0, 0), ROp (Some 3%nat)); (QPop (0, 0), ROp None) ].
Proof. eexists. vm_compute. reflexivity. Qed.

(** ** C02 *)

Section C02.
  Variable Op : Type.
  Notation event := (event Op).

  Lemma dirty_invariant : forall (tr : list event) q,
    qrun operation_queue_new (map fst tr) = Ok (map snd tr, q) ->
    clears_when_drained tr ->
    (forall t, pend q t <> [] -> In t (q_dirty q)) /\
    (forall t, In t (q_dirty q) -> added_since_clear t tr).
  Proof.
    intros tr. induction tr as [|[c r] tr IH] using rev_ind; intros q H C.
    - simpl in H. inversion H; subst. split.
      + intros t N. exfalso. apply N, pend_new.
      + intros t [].
    - assert (observed (tr ++ (c, r) :: [])) as O by (exists q; auto).
      destruct (observed_split _ _ _ _ _ O) as (q1 & q2 & E1 & W1 & A1 & S).
      assert (q2 = q) as ->.
      { rewrite !map_app, qrun_app, E1 in H. simpl in H. rewrite S in H. simpl in H. inversion H; auto. }
      assert (clears_when_drained tr) as C1.
      { intros a r' b E t. apply (C a r' (b ++ [(c, r)])). rewrite E, <- app_assoc. auto. }
      destruct (IH _ E1 C1) as (I1 & I2).
      assert (forall t, added_since_clear t tr -> c <> QClear -> added_since_clear t (tr ++ [(c, r)])) as Keep.
      { intros t (a & o & r' & b & E & N) Nc. exists a, o, r', (b ++ [(c, r)]). split.
        - rewrite E, <- app_assoc. auto.
        - intros r2 I. apply in_app_iff in I. destruct I as [I|[I|[]]]; [eapply N; eauto|].
          inversion I; subst. congruence. }
      destruct c; simpl in S.
      + apply obind_ok in S. destruct S as (q4 & E5 & E6). inversion E6; subst.
        destruct (add_spec _ _ _ _ _ W1 E5) as (W4 & P & D).
        assert (added_since_clear t (tr ++ [(QAdd t op, RUnit)])) as Self.
        { exists tr, op, RUnit, []. split; auto. }
        destruct D as [(Ne & D)|(Em & [D|(_ & D)])]; rewrite D; split; intros t'.
        * rewrite P. destruct (tile_equal t t') eqn:X; auto.
          apply tile_equal_spec in X. subst. auto.
        * intros I. apply Keep; auto. discriminate.
        * rewrite P. destruct (tile_equal t t') eqn:X; rewrite in_app_iff; auto.
          apply tile_equal_spec in X. subst. simpl. auto.
        * rewrite in_app_iff. intros [I|[<-|[]]]; auto. apply Keep; auto. discriminate.
        * rewrite P. destruct (tile_equal t t') eqn:X; rewrite in_app_iff.
          -- apply tile_equal_spec in X. subst. simpl. auto.
          -- intros N. left. apply remove_dup_spec. auto.
        * rewrite in_app_iff. intros [I|[<-|[]]]; [|exact Self]. apply Keep; [|discriminate].
          apply I2. destruct (remove_dup_spec (q_dirty q1)) as (_ & B & _). apply B. exact I.
      + destruct (pop_spec _ q1 t W1) as (q4 & E5 & W4 & D & _ & P). rewrite E5 in S. simpl in S.
        inversion S; subst. rewrite D. split; intros t'.
        * rewrite P. destruct (tile_equal t t'); auto. intros N. apply I1. intros X. rewrite X in N. auto.
        * intros I. apply Keep; auto. discriminate.
      + rewrite peek_first_spec in S; auto. simpl in S. inversion S; subst. split; auto.
        intros t' I. apply Keep; auto. discriminate.
      + rewrite peek_last_spec in S; auto. simpl in S. inversion S; subst. split; auto.
        intros t' I. apply Keep; auto. discriminate.
      + inversion S; subst. simpl. destruct (remove_dup_spec (q_dirty q1)) as (_ & B & _). split; intros t'.
        * intros N. apply B. auto.
        * intros I. apply Keep; [|discriminate]. apply I2, B, I.
      + inversion S; subst. simpl. split; [|tauto]. intros t' N. exfalso. apply N.
        pose proof (C tr RUnit [] eq_refl t') as E. rewrite A1 in E.
        rewrite <- (app_nil_r (delivered t' tr)) in E at 2. apply app_inv_head in E. exact E.
  Qed.

  Lemma dirty_since_clear : forall (tr : list event) q,
    qrun operation_queue_new (map fst tr) = Ok (map snd tr, q) ->
    (forall t, In t (q_dirty q) -> added_since_clear t tr).
  Proof.
    intros tr. induction tr as [|[c r] tr IH] using rev_ind; intros q H.
    - simpl in H. inversion H; subst. intros t [].
    - assert (observed (tr ++ (c, r) :: [])) as O by (exists q; auto).
      destruct (observed_split _ _ _ _ _ O) as (q1 & q2 & E1 & W1 & A1 & S).
      assert (q2 = q) as ->.
      { rewrite !map_app, qrun_app, E1 in H. simpl in H. rewrite S in H. simpl in H. inversion H; auto. }
      pose proof (IH _ E1) as I2.
      assert (forall t, c <> QClear -> In t (q_dirty q1) -> added_since_clear t (tr ++ [(c, r)])) as Keep.
      { intros t Nc I0. destruct (I2 t I0) as (a & o & r' & b & E & N). exists a, o, r', (b ++ [(c, r)]). split.
        - rewrite E, <- app_assoc. auto.
        - intros r2 I. apply in_app_iff in I. destruct I as [I|[I|[]]]; [eapply N; eauto|].
          inversion I; subst. congruence. }
      destruct c; simpl in S; intros t'.
      + apply obind_ok in S. destruct S as (q4 & E5 & E6). inversion E6; subst.
        destruct (add_spec _ _ _ _ _ W1 E5) as (W4 & P & D).
        assert (added_since_clear t (tr ++ [(QAdd t op, RUnit)])) as Self.
        { exists tr, op, RUnit, []. split; auto. }
        destruct D as [(Ne & D)|(Em & [D|(_ & D)])]; rewrite D.
        * apply Keep. discriminate.
        * rewrite in_app_iff. intros [I|[<-|[]]]; [apply Keep; [discriminate|auto]|exact Self].
        * rewrite in_app_iff. intros [I|[<-|[]]]; [|exact Self]. apply Keep; [discriminate|].
          destruct (remove_dup_spec (q_dirty q1)) as (_ & B & _). apply B. exact I.
      + destruct (pop_spec _ q1 t W1) as (q4 & E5 & W4 & D & _ & P). rewrite E5 in S. simpl in S.
        inversion S; subst. rewrite D. apply Keep. discriminate.
      + rewrite peek_first_spec in S; auto. simpl in S. inversion S; subst. apply Keep. discriminate.
      + rewrite peek_last_spec in S; auto. simpl in S. inversion S; subst. apply Keep. discriminate.
      + inversion S; subst. simpl. destruct (remove_dup_spec (q_dirty q1)) as (_ & B & _).
        intros I. apply Keep; [discriminate|]. apply B, I.
      + inversion S; subst. simpl. tauto.
  Qed.
End C02.

(** If the dirty list is only ever cleared when everything was delivered (what
    end_atomic does), then each time the list is read it names every tile that
    still has an undelivered payload, has no repetitions and names only tiles
    drawn on since the last clear. *)
Theorem C02_dirty_list_complete :
  forall (Op : Type) (tr1 tr2 : list (event Op)) l,
  observed (tr1 ++ (QDirty, RTiles l) :: tr2) ->
  clears_when_drained (tr1 ++ (QDirty, RTiles l) :: tr2) ->
  NoDup l /\
  (forall t, added t tr1 <> delivered t tr1 -> In t l) /\
  (forall t, In t l -> added_since_clear t tr1).
Proof.
  intros Op tr1 tr2 l O C.
  destruct (observed_split _ _ _ _ _ O) as (q1 & q2 & E1 & W1 & A1 & S).
  assert (clears_when_drained tr1) as C1.
  { intros a r' b E t. apply (C a r' (b ++ (QDirty, RTiles l) :: tr2)). rewrite E, <- app_assoc. auto. }
  destruct (dirty_invariant _ _ _ E1 C1) as (I1 & I2).
  simpl in S. inversion S; subst; clear S.
  destruct (remove_dup_spec (q_dirty q1)) as (A & B & _).
  split; [auto|]. split.
  - intros t N. apply B, I1. intros X. apply N. rewrite A1, X, app_nil_r. auto.
  - intros t I. apply I2, B, I.
Qed.

Lemma no_clear_drained : forall Op (tr : list (event Op)),
  (forall r, ~ In (QClear, r) tr) -> clears_when_drained tr.
Proof.
  intros Op tr H a r b E t. exfalso. apply (H r). rewrite E. apply in_app_iff. simpl. auto.
Qed.

(** The second drawing on (0,0) after it was drained makes it appear twice in
    the internal array; the list handed out still has it once. *)
Example C02_example :
  let tr := [ (QAdd (0,0) 1%nat, RUnit); (QPop (0,0), ROp (Some 1%nat)); (QPop (0,0), ROp None);
              (QAdd (0,0) 2%nat, RUnit); (QAdd (3,4) 5%nat, RUnit);
              (QDirty, RTiles [(0,0); (3,4)]) ] in
  observed tr /\ clears_when_drained tr /\
  added (3,4) tr <> delivered (3,4) tr.
Proof.
  split; [eexists; vm_compute; reflexivity|]. split; [|vm_compute; congruence].
  apply no_clear_drained. intros r I. simpl in I.
  repeat (destruct I as [I|I]; [discriminate|]). exact I.
Qed.

(** ** C03 *)

(** The claim "queueing a dab never fails" is false: fill all 400 tiles of the
    initial map (one large dab does), read one tile back (its dabs are popped),
    and draw on that tile again. *)
Theorem C03_never_aborts_refuted :
  exists cs : list (qcall unit),
    tiles_within 10 cs /\ ~ In QClear cs /\
    qrun operation_queue_new cs = Abort.
Proof.
  exists (map (fun t => QAdd t tt) (all_tiles 10) ++ [QPop (0,0); QPop (0,0); QAdd (0,0) tt]).
  split; [|split].
  - intros t o I. apply in_app_iff in I. destruct I as [I|I].
    + apply in_map_iff in I. destruct I as (t' & E & I). inversion E; subst.
      apply in_all_tiles in I. apply contains_spec in I. auto.
    + simpl in I. destruct I as [I|[I|[I|[]]]]; inversion I; subst; simpl; lia.
  - intros I. apply in_app_iff in I. destruct I as [I|I].
    + apply in_map_iff in I. destruct I as (? & ? & _). discriminate.
    + simpl in I. destruct I as [I|[I|[I|[]]]]; discriminate.
  - vm_compute. reflexivity.
Qed.

(** Far away tiles overflow the 32-bit size computation. *)
Theorem C03_far_tile_refuted :
  forall (Op : Type) (cs : list (qcall Op)) rs q (x y : Z) o,
  qrun operation_queue_new cs = Ok (rs, q) ->
  23170 <= x -> qrun q [QAdd (x, y) o] = UB.
Proof.
  intros Op cs rs q x y o H Hx.
  assert (wf q) as W.
  { pose proof (qrun_length _ _ _ _ _ H) as L.
    set (tr := combine cs rs).
    assert (map fst tr = cs /\ map snd tr = rs) as [Ef Es].
    { clear - L. subst tr. revert rs L. induction cs; destruct rs; simpl; intros; try discriminate; auto.
      destruct (IHcs rs) as [E1 E2]; [lia|]. split; congruence. }
    apply (observed_state Op tr). rewrite Ef, Es. auto. }
  simpl. unfold operation_queue_add. rewrite grow_ub; auto.
  intros n Hn Hs. destruct (tile_map_contains n (x, y)) eqn:E; auto.
  apply contains_spec in E. simpl in E.
  assert (map_size 23171 <= map_size n) by (apply map_size_mono; lia).
  unfold map_size, INT_MAX in *. lia.
Qed.

(** Exact characterisation of the abort: for a queue in any reachable state and
    a tile that can be reached, drawing fails iff the tile has no pending
    payload and every tile of the square map (the growth of the current one) is
    in the dirty list. *)
Section C03.
  Variable Op : Type.
  Notation event := (event Op).

  (** Invariant for histories without redraw after pop. *)
  Lemma no_redraw_invariant : forall (tr : list event) q,
    qrun operation_queue_new (map fst tr) = Ok (map snd tr, q) ->
    no_redraw_after_pop (map fst tr) ->
    NoDup (q_dirty q) /\
    (forall t, In t (q_dirty q) -> pend q t <> [] \/
       exists a b, map fst tr = a ++ QPop t :: b /\ ~ In QClear b).
  Proof.
    intros tr. induction tr as [|[c r] tr IH] using rev_ind; intros q H C.
    - simpl in H. inversion H; subst. split; [constructor|]. intros t [].
    - assert (observed (tr ++ (c, r) :: [])) as O by (exists q; auto).
      destruct (observed_split _ _ _ _ _ O) as (q1 & q2 & E1 & W1 & A1 & S).
      assert (q2 = q) as ->.
      { rewrite !map_app, qrun_app, E1 in H. simpl in H. rewrite S in H. simpl in H. inversion H; auto. }
      rewrite map_app in C. simpl in C. rewrite map_app. simpl.
      assert (no_redraw_after_pop (map fst tr)) as C1.
      { intros a b d t o E. apply (C a b (d ++ [c]) t o). rewrite E, <- !app_assoc. simpl.
        rewrite <- app_assoc. auto. }
      destruct (IH _ E1 C1) as (I1 & I2).
      assert (forall t, c <> QClear ->
        (exists a b, map fst tr = a ++ QPop t :: b /\ ~ In QClear b) ->
        exists a b, map fst tr ++ [c] = a ++ QPop t :: b /\ ~ In QClear b) as Keep.
      { intros t Nc (a & b & E & N). exists a, (b ++ [c]). split.
        - rewrite E, <- app_assoc. auto.
        - rewrite in_app_iff. simpl. intuition. }
      destruct c; simpl in S.
      + apply obind_ok in S. destruct S as (q4 & E5 & E6). inversion E6; subst.
        destruct (add_spec _ _ _ _ _ W1 E5) as (W4 & P & D).
        assert (pend q1 t = [] -> ~ In t (q_dirty q1)) as Fresh.
        { intros Em I. destruct (I2 _ I) as [N|(a & b & E & N)]; [congruence|].
          apply N. apply (C a b [] t op). rewrite E, <- app_assoc. auto. }
        assert (pend q t <> []) as Nt.
        { rewrite P, (proj2 (tile_equal_spec t t) eq_refl). destruct (pend q1 t); discriminate. }
        assert (NoDup (q_dirty q) /\ (forall t', In t' (q_dirty q) -> t' = t \/ In t' (q_dirty q1))) as [Q1 Q2].
        { destruct D as [(Ne & D)|(Em & D)].
          - rewrite D. auto.
          - assert (q_dirty q = q_dirty q1 ++ [t]) as E.
            { destruct D as [D|(_ & D)]; rewrite D; auto. rewrite remove_dup_nodup; auto. }
            rewrite E. split.
            + apply (Permutation.Permutation_NoDup (l := t :: q_dirty q1)); [apply Permutation.Permutation_cons_append|].
              constructor; auto.
            + intros t'. rewrite in_app_iff. simpl. intuition. }
        split; auto. intros t' I. destruct (tile_eq_dec t t') as [->|Nq]; [auto|].
        destruct (Q2 _ I) as [->|I']; [congruence|].
        destruct (I2 _ I') as [N|X].
        * left. rewrite P. destruct (tile_equal t t') eqn:E; auto. destruct (pend q1 t'); discriminate.
        * right. apply Keep; auto. discriminate.
      + destruct (pop_spec _ q1 t W1) as (q4 & E5 & W4 & D & _ & P). rewrite E5 in S. simpl in S.
        inversion S; subst. rewrite D. split; auto. intros t' I.
        destruct (tile_eq_dec t t') as [->|Nq].
        * right. exists (map fst tr), []. split; auto.
        * destruct (I2 _ I) as [N|X].
          -- left. rewrite P. destruct (tile_equal t t') eqn:E; auto. apply tile_equal_spec in E. congruence.
          -- right. apply Keep; auto. discriminate.
      + rewrite peek_first_spec in S; auto. simpl in S. inversion S; subst. split; auto.
        intros t' I. destruct (I2 _ I); auto. right. apply Keep; auto. discriminate.
      + rewrite peek_last_spec in S; auto. simpl in S. inversion S; subst. split; auto.
        intros t' I. destruct (I2 _ I); auto. right. apply Keep; auto. discriminate.
      + inversion S; subst. simpl. rewrite remove_dup_nodup by auto. split; auto.
        intros t' I. destruct (I2 _ I); auto. right. apply Keep; auto. discriminate.
      + inversion S; subst. simpl. split; [constructor|tauto].
  Qed.

  Lemma size_pow : forall (cs : list (qcall Op)) rs q,
    qrun operation_queue_new cs = Ok (rs, q) -> exists k : nat, q_size q = 10 * 2 ^ Z.of_nat k.
  Proof.
    assert (forall fuel (q q' : queue Op) t, wf q -> (exists k : nat, q_size q = 10 * 2 ^ Z.of_nat k) ->
              grow fuel q t = Ok q' -> exists k : nat, q_size q' = 10 * 2 ^ Z.of_nat k) as G.
    { induction fuel; intros q q' t W (k & Hk) H; simpl in H.
      - destruct (tile_map_contains _ _); inversion H; subst; eauto.
      - destruct (tile_map_contains _ _); [inversion H; subst; eauto|].
        apply obind_ok in H. destruct H as (q1 & E1 & E2).
        pose proof (wf_map _ _ W) as [Wn _].
        destruct (Z_le_gt_dec (map_size (q_size q * 2)) INT_MAX).
        + destruct (resize_ok _ q (q_size q * 2)) as (q1' & E1' & W1 & S1 & D1 & P1); auto; [lia|].
          rewrite E1' in E1. inversion E1; subst q1'. eapply IHfuel; eauto.
          exists (S k). rewrite S1, Hk. replace (Z.of_nat (S k)) with (Z.of_nat k + 1) by lia.
          rewrite Z.pow_add_r by lia. lia.
        + rewrite resize_ub in E1; auto; try lia. discriminate. }
    assert (forall cs (q q' : queue Op) rs, wf q -> (exists k : nat, q_size q = 10 * 2 ^ Z.of_nat k) ->
              qrun q cs = Ok (rs, q') -> exists k : nat, q_size q' = 10 * 2 ^ Z.of_nat k) as R.
    { induction cs; intros q q' rs W K H; simpl in H.
      - inversion H; subst; auto.
      - apply obind_ok in H. destruct H as ([r1 q1] & E1 & H).
        apply obind_ok in H. destruct H as ([rs2 q2] & E2 & H). cbn [fst snd] in *. inversion H; subst.
        eapply IHcs; [| |exact E2].
        + eapply qstep_wf; eauto.
        + destruct a; simpl in E1.
          * apply obind_ok in E1. destruct E1 as (q4 & E5 & E6). inversion E6; subst.
            unfold operation_queue_add in E5. apply obind_ok in E5. destruct E5 as (q5 & E5 & E7).
            destruct (grow_ok _ _ _ _ _ W E5) as (W5 & C5 & _).
            destruct (G _ _ _ _ W K E5) as (k & Hk). exists k. rewrite <- Hk.
            apply obind_ok in E7. destruct E7 as (s & _ & E7).
            apply obind_ok in E7. destruct E7 as (d & _ & E7).
            apply obind_ok in E7. destruct E7 as (m & _ & E7). inversion E7; auto.
          * destruct (pop_spec _ q t W) as (q4 & E5 & W4 & D & Sz & P). rewrite E5 in E1. simpl in E1.
            inversion E1; subst. rewrite Sz. auto.
          * rewrite peek_first_spec in E1; auto. simpl in E1. inversion E1; subst. auto.
          * rewrite peek_last_spec in E1; auto. simpl in E1. inversion E1; subst. auto.
          * inversion E1; subst. auto.
          * inversion E1; subst. auto. }
    intros. eapply R; eauto; [apply wf_new|]. exists O. reflexivity.
  Qed.

  (** any tile within +-20480 can be reached from any reachable queue *)
  Lemma grow_within : forall (cs : list (qcall Op)) rs q t, wf q ->
    qrun operation_queue_new cs = Ok (rs, q) ->
    - 20480 <= fst t < 20480 -> - 20480 <= snd t < 20480 -> is_ok (grow grow_fuel q t).
  Proof.
    intros cs rs q t W H Hx Hy. destruct (size_pow _ _ _ H) as (k & Hk).
    assert (k <= 11)%nat as Kle.
    { destruct (le_lt_dec k 11); auto. exfalso. pose proof (wf_int _ _ W).
      assert (10 * 2 ^ 12 <= q_size q).
      { rewrite Hk. apply Z.mul_le_mono_nonneg_l; [lia|]. apply Z.pow_le_mono_r; lia. }
      assert (map_size (10 * 2 ^ 12) <= map_size (q_size q)) by (apply map_size_mono; lia).
      assert (INT_MAX < map_size (10 * 2 ^ 12)) by reflexivity. lia. }
    assert (q_size q * 2 ^ Z.of_nat (11 - k) = 20480) as E.
    { rewrite Hk, <- Z.mul_assoc, <- Z.pow_add_r by lia.
      replace (Z.of_nat k + Z.of_nat (11 - k)) with 11 by lia. reflexivity. }
    apply grow_reach with (11 - k)%nat; auto.
    - rewrite E. unfold map_size, INT_MAX. lia.
    - rewrite E. apply contains_spec. auto.
    - unfold grow_fuel. lia.
  Qed.
End C03.

(** Partial C03.  Missing from the full claim: histories that read a colour
    back and draw again on the same tile when the dirty list is full (refuted
    above), and tiles beyond +-20480 (refuted above for x >= 23170). *)
Theorem C03_never_aborts_partial :
  forall (Op : Type) (cs : list (qcall Op)),
  tiles_within 20480 cs -> no_redraw_after_pop cs ->
  is_ok (qrun operation_queue_new cs).
Proof.
  intros Op cs. induction cs as [|c cs IH] using rev_ind; intros T N.
  - eexists; reflexivity.
  - destruct IH as ([rs q] & E).
    { intros t o I. apply (T t o). apply in_app_iff; auto. }
    { intros a b d t o E. apply (N a b (d ++ [c]) t o). rewrite E, <- !app_assoc. simpl.
      rewrite <- app_assoc. auto. }
    pose proof (qrun_length _ _ _ _ _ E) as L.
    set (tr := combine cs rs).
    assert (map fst tr = cs /\ map snd tr = rs) as [Ef Es].
    { clear - L. subst tr. revert rs L. induction cs; destruct rs; simpl; intros; try discriminate; auto.
      destruct (IHcs rs) as [E1 E2]; [lia|]. split; congruence. }
    assert (qrun operation_queue_new (map fst tr) = Ok (map snd tr, q)) as E' by (rewrite Ef, Es; auto).
    destruct (observed_state Op tr q E') as (W & A).
    rewrite qrun_app, E. simpl.
    enough (is_ok (qstep q c)) as ([r q'] & Eq).
    { rewrite Eq. simpl. eexists; reflexivity. }
    destruct c as [t o| | | | |]; try (apply qstep_total; [auto|congruence]).
    simpl. destruct (T t o) as [Tx Ty]; [apply in_app_iff; simpl; auto|].
    destruct (grow_within _ _ _ _ t W E Tx Ty) as (q1 & G).
    destruct (add_ok_iff _ q t o q1 W G) as (I & _).
    enough (is_ok (operation_queue_add q t o)) as (q' & Eq) by (rewrite Eq; eexists; reflexivity).
    apply I. intros (Em & All).
    assert (no_redraw_after_pop (map fst tr)) as N1.
    { rewrite Ef. intros a b d t' o' E2. apply (N a b (d ++ [QAdd t o]) t' o'). rewrite E2, <- !app_assoc. simpl.
      rewrite <- app_assoc. auto. }
    destruct (no_redraw_invariant _ _ _ E' N1) as (_ & D).
    destruct (grow_ok _ _ _ _ _ W G) as (_ & C1 & _).
    destruct (D t (All t C1)) as [Ne|(a & b & E2 & Nc)]; [auto|].
    apply Nc. apply (N a b [] t o). rewrite <- Ef, E2, <- app_assoc. auto.
Qed.

(** How far the abort is from ordinary use: whenever queueing on a tile within
    +-20480 fails, it is the assertion, at least 400 different tiles were drawn
    on since the last clear, and the tile has nothing left to deliver. *)
Theorem C03_abort_only_when_full_partial :
  forall (Op : Type) (tr : list (event Op)) t o,
  observed tr -> - 20480 <= fst t < 20480 -> - 20480 <= snd t < 20480 ->
  ~ is_ok (qrun operation_queue_new (map fst tr ++ [QAdd t o])) ->
  qrun operation_queue_new (map fst tr ++ [QAdd t o]) = Abort /\
  added t tr = delivered t tr /\
  exists l : list tile, NoDup l /\ (400 <= length l)%nat /\ forall t', In t' l -> added_since_clear t' tr.
Proof.
  intros Op tr t o (q & E) Hx Hy N.
  destruct (observed_state _ _ _ E) as (W & A).
  rewrite qrun_app, E in N |- *. simpl in N |- *.
  destruct (grow_within _ _ _ _ t W E Hx Hy) as (q1 & G).
  destruct (add_ok_iff _ q t o q1 W G) as (I & J).
  assert (~ is_ok (operation_queue_add q t o)) as N1.
  { intros (q' & Eq). apply N. rewrite Eq. eexists; reflexivity. }
  rewrite (J N1). simpl. split; [reflexivity|].
  assert (pend q t = [] /\ forall t', tile_map_contains (q_size q1) t' = true -> In t' (q_dirty q)) as (Em & All).
  { destruct (pend q t) eqn:Ep.
    - split; auto. intros t' C'. destruct (in_dec tile_eq_dec t' (q_dirty q)) as [?|Ni]; auto.
      exfalso. apply N1, I. intros (_ & All). auto.
    - exfalso. apply N1, I. intros (E0 & _). discriminate. }
  split; [rewrite A, Em, app_nil_r; auto|].
  exists (all_tiles 10). split; [apply NoDup_all_tiles|]. split.
  - pose proof (all_tiles_length 10). unfold map_size in *. lia.
  - intros t' I'. apply (dirty_since_clear _ _ _ E), All.
    destruct (size_pow _ _ _ _ E) as (k & Hk). destruct (grow_ok _ _ _ _ _ W G) as (_ & _ & _ & Sz & _).
    apply in_all_tiles in I'. apply contains_spec in I'. apply contains_spec.
    assert (1 <= 2 ^ Z.of_nat k) by (pose proof (Z.pow_pos_nonneg 2 (Z.of_nat k)); lia). lia.
Qed.

(** Executable check used only to exhibit an instance. *)
Fixpoint nr_check {Op} (popped : list tile) (cs : list (qcall Op)) : bool :=
  match cs with
  | [] => true
  | QPop t :: cs' => nr_check (t :: popped) cs'
  | QClear :: cs' => nr_check [] cs'
  | QAdd t _ :: cs' => negb (existsb (tile_equal t) popped) && nr_check popped cs'
  | _ :: cs' => nr_check popped cs'
  end.

Lemma nr_check_sound : forall Op (cs : list (qcall Op)) p, nr_check p cs = true ->
  no_redraw_after_pop cs.
Proof.
  intros Op cs p H.
  enough ((forall b c t o, In t p -> cs = b ++ QAdd t o :: c -> In QClear b) /\ no_redraw_after_pop cs) by tauto.
  revert p H. induction cs as [|c cs IH]; intros p H.
  - split; [intros [|? ?] ? ? ? ? E; discriminate|]. intros [|? ?] ? ? ? ? E; discriminate.
  - assert (exists p', nr_check p' cs = true /\ (c <> QClear -> incl p p') /\
              (forall t, c = QPop t -> In t p') /\ (forall t o, c = QAdd t o -> ~ In t p)) as (p' & N & I & I2 & I3).
    { destruct c; simpl in H.
      - apply andb_true_iff in H. destruct H as [H1 H2]. exists p. split; [auto|]. split; [intros _ x; auto|].
        split; [congruence|]. intros t' o' E It. inversion E; subst.
        apply negb_true_iff in H1. rewrite <- not_true_iff_false in H1. apply H1.
        apply existsb_exists. exists t'. split; auto. apply tile_equal_spec; auto.
      - exists (t :: p). split; [auto|]. split; [intros _ x ?; simpl; auto|].
        split; [intros ? E; inversion E; simpl; auto|congruence].
      - exists p. split; [auto|]. split; [intros _ x; auto|]. split; congruence.
      - exists p. split; [auto|]. split; [intros _ x; auto|]. split; congruence.
      - exists p. split; [auto|]. split; [intros _ x; auto|]. split; congruence.
      - exists []. split; [auto|]. split; [congruence|]. split; congruence. }
    destruct (IH _ N) as (A & B). split.
    + intros [|c' b] d t o It E; inversion E; subst.
      * exfalso. eapply I3; eauto.
      * destruct c'; try (right; eapply A; [apply I; [discriminate|exact It]|reflexivity]).
        left. reflexivity.
    + intros [|c' a] b d t o E; inversion E; subst.
      * eapply A; [apply I2; reflexivity|reflexivity].
      * eapply B. reflexivity.
Qed.

Example C03_partial_example :
  let cs := [QAdd (0,0) 1%nat; QAdd (-20480, 20479) 2%nat; QAdd (0,0) 3%nat; QDirty;
             QPop (0,0); QPop (0,0); QPop (0,0); QClear; QAdd (0,0) 4%nat] in
  tiles_within 20480 cs /\ no_redraw_after_pop cs.
Proof.
  split.
  - intros t o I. simpl in I.
    repeat (destruct I as [I|I]; [inversion I; subst; simpl; lia|]). contradiction.
  - apply (nr_check_sound _ _ []). reflexivity.
Qed.

Print Assumptions C01_exactly_once_in_order.
Print Assumptions C01_drain_delivers_rest.
Print Assumptions C02_dirty_list_complete.
Print Assumptions C03_never_aborts_refuted.
Print Assumptions C03_far_tile_refuted.
Print Assumptions C03_never_aborts_partial.
Print Assumptions C03_abort_only_when_full_partial.
