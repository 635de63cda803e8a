(** Properties of tile contents kept by every history, whatever the backend
    grants and whenever tiles are flushed. *)
From Verif Require Import Base Queue QueueProofs Plumb PlumbProofs.

Section Keep.
  Variables (Op T : Type) (micro : tile -> Op -> list (T -> outcome T)).
  Variables (P : tile -> T -> Prop) (Q : tile -> Op -> Prop).
  Notation apply := (apply Op T micro).
  Notation ev_step := (ev_step Op T micro).
  Hypothesis step : forall t o v v', Q t o -> P t v -> apply t v o = Ok v' -> P t v'.

  Record keeps (s : surf Op T) : Prop := {
    k_wf : wf (sf_q s);
    k_pix : forall t, P t (sf_pix s t);
    k_pend : forall t o, In o (pend (sf_q s) t) -> Q t o }.

  Lemma fold_keeps : forall t l v v', (forall o, In o l -> Q t o) -> P t v -> ofold (apply t) l v = Ok v' -> P t v'.
  Proof.
    intros t. induction l as [|o l IH]; intros v v' A K H; cbn [ofold] in H.
    - congruence.
    - apply obind_ok in H. destruct H as (v1 & E & H). eapply IH; [|eapply step|exact H]; eauto.
      + intros. apply A. right. auto.
      + apply A. left. auto.
  Qed.

  Lemma result_keeps : forall can t l v v' l', (forall o, In o l -> Q t o) -> P t v ->
    tile_result Op T micro can t l v = Ok (v', l') -> P t v' /\ incl l' l.
  Proof.
    intros can t l v v' l' A K H. unfold tile_result in H. destruct l as [|o l].
    - inversion H; subst. split; auto. intros x I. auto.
    - destruct (can t).
      + apply obind_ok in H. destruct H as (v1 & E & H). inversion H; subst. split; [|intros x []].
        eapply fold_keeps; eauto.
      + inversion H; subst. split; auto. intros x I. right. auto.
  Qed.

  Lemma process_keeps : forall can s t s', keeps s -> process_tile Op T micro can s t = Ok s' -> keeps s'.
  Proof.
    intros can s t s' [W Kp Kq] H. destruct (process_tile_ok Op T micro can s t s' W H) as (v & l & R & [O Px]).
    destruct (result_keeps can t _ _ _ _ (Kq t) (Kp t) R) as (A & B).
    constructor; [apply O| |].
    - intros t'. rewrite Px. destruct (tile_equal t t') eqn:E; auto. apply tile_equal_spec in E. subst. auto.
    - intros t' o I. rewrite (only_pend _ _ _ _ _ O) in I. destruct (tile_equal t t') eqn:E; [|auto].
      apply tile_equal_spec in E. subst. apply Kq. apply B. auto.
  Qed.

  Lemma flush_keeps : forall can s s', keeps s -> flush Op T micro can s = Ok s' -> keeps s'.
  Proof.
    intros can s s' [W Kp Kq] H. destruct (flush_spec Op T micro can s s' W H) as (W' & _ & F).
    assert (forall t, P t (sf_pix s' t) /\ incl (pend (sf_q s') t) (pend (sf_q s) t)) as X.
    { intros t. specialize (F t). destruct (in_dec tile_eq_dec t (q_dirty (sf_q s))).
      - eapply result_keeps; eauto.
      - destruct F as (-> & ->). split; auto. intros x I. auto. }
    constructor; auto.
    - intros t. apply X.
    - intros t o I. apply Kq, X. auto.
  Qed.

  Lemma read_keeps : forall canw canr rows s s' seen, keeps s -> read Op T micro canw canr rows s = Ok (s', seen) ->
    keeps s' /\ forall t v, In (t, v) seen -> P t v.
  Proof.
    assert (forall canw canr row s seen s' seen', keeps s -> (forall t v, In (t, v) seen -> P t v) ->
      read_row Op T micro canw canr row s seen = Ok (s', seen') -> keeps s' /\ forall t v, In (t, v) seen' -> P t v) as Row.
    { intros canw canr. induction row as [|t row IH]; intros s seen s' seen' K A H; cbn [read_row] in H.
      - inversion H; subst. auto.
      - apply obind_ok in H. destruct H as (s1 & E & H). pose proof (process_keeps _ _ _ _ K E) as K1.
        destruct (canr t); [|inversion H; subst; auto].
        eapply IH; [exact K1| |exact H]. intros t' v I. apply in_app_or in I. destruct I as [I|[I|[]]]; auto.
        inversion I; subst. apply K1. }
    assert (forall canw canr rows s seen s' seen', keeps s -> (forall t v, In (t, v) seen -> P t v) ->
      ofold (fun a row => read_row Op T micro canw canr row (fst a) (snd a)) rows (s, seen) = Ok (s', seen') ->
      keeps s' /\ forall t v, In (t, v) seen' -> P t v) as Rows.
    { intros canw canr. induction rows as [|row rows IH]; intros s seen s' seen' K A H; cbn [ofold] in H.
      - inversion H; subst. auto.
      - apply obind_ok in H. destruct H as ((s1, seen1) & E & H). cbn [fst snd] in E.
        destruct (Row _ _ _ _ _ _ _ K A E) as (K1 & A1). eapply IH; eauto. }
    intros canw canr rows s s' seen K H. apply (Rows canw canr rows s [] s' seen); auto. intros t v [].
  Qed.

  Lemma enqueue_keeps : forall s o ts s', keeps s -> (forall t, In t ts -> Q t o) -> enqueue Op T s o ts = Ok s' -> keeps s'.
  Proof.
    intros s o ts s' [W Kp Kq] A H. unfold enqueue in H. apply obind_ok in H. destruct H as (q & E & H). inversion H; subst.
    destruct (enqueue_q Op o ts _ _ W E) as (W' & Pq & _). constructor; auto. cbn [sf_q].
    intros t o' I. rewrite Pq in I. apply in_app_or in I. destruct I as [I|I]; [auto|].
    unfold copies in I. apply in_map_iff in I. destruct I as (t' & <- & I). apply filter_In in I. destruct I as (I & X).
    apply tile_equal_spec in X. subst. auto.
  Qed.

  Lemma events_keep : forall evs s out s' out', keeps s -> (forall t o, In o (drawn Op t evs) -> Q t o) ->
    ofold ev_step evs (s, out) = Ok (s', out') -> keeps s'.
  Proof.
    induction evs as [|e evs IH]; intros s out s' out' K A H; cbn [ofold] in H.
    - inversion H; subst. auto.
    - apply obind_ok in H. destruct H as ((s1, o1) & E & H). eapply IH; [| |exact H].
      2:{ intros t o I. apply A. unfold drawn. cbn [flat_map]. apply in_or_app. auto. }
      destruct e as [o ts|canw canr rows|can]; cbn [Plumb.ev_step] in E; apply obind_ok in E.
      + destruct E as (s2 & E & E2). inversion E2; subst. eapply enqueue_keeps; eauto.
        intros t I. apply A. unfold drawn. cbn [flat_map]. apply in_or_app. left. unfold copies.
        apply in_map_iff. exists t. split; auto. apply filter_In. split; auto. apply tile_equal_spec. auto.
      + destruct E as ((s2, seen) & E & E2). inversion E2; subst. eapply read_keeps; eauto.
      + destruct E as (s2 & E & E2). inversion E2; subst. eapply flush_keeps; eauto.
  Qed.
End Keep.
