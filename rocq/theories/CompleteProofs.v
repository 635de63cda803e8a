(** Sessions run to completion: totality of the queue and of the tile plumbing. *)
From Verif Require Import Base Queue QueueProofs Plumb PlumbProofs KeepProofs.
From Coq Require Import ZifyBool.
Local Open Scope Z_scope.

(** *** The queue *)
Section Q.
  Variable Op : Type.
  Notation queue := (queue Op).

  (** the sizes the map of a queue takes *)
  Definition sized (q : queue) : Prop := exists k : nat, q_size q = 10 * 2 ^ Z.of_nat k.

  Lemma grow_sized : forall fuel (q q' : queue) t, wf q -> sized q -> grow fuel q t = Ok q' -> sized q'.
  Proof.
    induction fuel; intros q q' t W (k & Hk) H; simpl in H.
    - destruct (tile_map_contains _ _); inversion H; subst; unfold sized; eauto.
    - destruct (tile_map_contains _ _); [inversion H; subst; unfold sized; eauto|].
      apply obind_ok in H. destruct H as (q1 & E1 & E2).
      pose proof (wf_map _ _ W) as [Wn _].
      destruct (Z_le_gt_dec (map_size (q_size q * 2)) INT_MAX).
      + destruct (resize_ok _ q (q_size q * 2)) as (q1' & E1' & W1 & S1 & D1 & P1); auto; [lia|].
        rewrite E1' in E1. inversion E1; subst q1'. eapply IHfuel; eauto.
        exists (S k). rewrite S1, Hk. replace (Z.of_nat (S k)) with (Z.of_nat k + 1) by lia.
        rewrite Z.pow_add_r by lia. lia.
      + rewrite resize_ub in E1; auto; try lia. discriminate.
  Qed.

  Lemma add_sized : forall (q q' : queue) t o, wf q -> sized q -> operation_queue_add q t o = Ok q' -> sized q'.
  Proof.
    intros q q' t o W S H. unfold operation_queue_add in H. apply obind_ok in H. destruct H as (q5 & E5 & E7).
    destruct (grow_sized _ _ _ _ W S E5) as (k & Hk). exists k. rewrite <- Hk.
    apply obind_ok in E7. destruct E7 as (s & _ & E7). apply obind_ok in E7. destruct E7 as (d & _ & E7).
    apply obind_ok in E7. destruct E7 as (m & _ & E7). inversion E7; auto.
  Qed.

  Definition tile_in_reach (t : tile) : Prop := - 20480 <= fst t < 20480 /\ - 20480 <= snd t < 20480.

  Lemma grow_in_reach : forall (q : queue) t, wf q -> sized q -> tile_in_reach t -> is_ok (grow grow_fuel q t).
  Proof.
    intros q t W (k & Hk) Ht.
    assert (k <= 11)%nat as Kle.
    { destruct (Nat.le_gt_cases k 11); auto. exfalso. pose proof (wf_int _ _ W).
      assert (10 * 2 ^ 12 <= q_size q).
      { rewrite Hk. apply Z.mul_le_mono_nonneg_l; [lia|]. apply Z.pow_le_mono_r; lia. }
      assert (map_size (10 * 2 ^ 12) <= map_size (q_size q)) by (apply map_size_mono; lia).
      assert (INT_MAX < map_size (10 * 2 ^ 12)) by reflexivity. lia. }
    assert (q_size q * 2 ^ Z.of_nat (11 - k) = 20480) as E.
    { rewrite Hk, <- Z.mul_assoc, <- Z.pow_add_r by lia.
      replace (Z.of_nat k + Z.of_nat (11 - k)) with 11 by lia. reflexivity. }
    apply grow_reach with (11 - k)%nat; auto.
    - rewrite E. unfold map_size, INT_MAX. lia.
    - rewrite E. apply contains_spec. auto.
    - unfold grow_fuel. lia.
  Qed.

  (** a tile of the initial map, 20 by 20 tiles around the origin *)
  Definition central (t : tile) : Prop := - 10 <= fst t < 10 /\ - 10 <= snd t < 10.

  (** room in the dirty list: either everything on it is still pending, or the
      tile [f] is not on it *)
  Definition room (f : option tile) (q : queue) : Prop :=
    match f with
    | None => forall t, In t (q_dirty q) -> pend q t <> []
    | Some t => central t /\ ~ In t (q_dirty q)
    end.

  Lemma add_dirty_incl : forall (q q' : queue) t o, wf q -> operation_queue_add q t o = Ok q' ->
    forall t', In t' (q_dirty q') -> In t' (q_dirty q) \/ t' = t.
  Proof.
    intros q q' t o W H t' I. destruct (add_spec _ _ _ _ _ W H) as (_ & _ & D).
    destruct D as [[_ D]|[_ [D|[_ D]]]]; rewrite D in I; auto; apply in_app_or in I; destruct I as [I|[<-|[]]]; auto.
    left. destruct (remove_dup_spec (q_dirty q)) as (_ & R & _). apply R. exact I.
  Qed.

  Lemma add_room : forall f (q q' : queue) t o, wf q -> operation_queue_add q t o = Ok q' -> room f q -> f <> Some t -> room f q'.
  Proof.
    intros f q q' t o W H R N. destruct f as [f|]; cbn [room] in *.
    - destruct R as (C & R). split; auto. intros I. destruct (add_dirty_incl _ _ _ _ W H _ I) as [I'| ->]; [auto|congruence].
    - intros t' I. destruct (add_spec _ _ _ _ _ W H) as (_ & P & _). rewrite P.
      destruct (tile_equal t t') eqn:E; [intros X; apply app_eq_nil in X; destruct X; discriminate|].
      destruct (add_dirty_incl _ _ _ _ W H _ I) as [I'| ->]; [auto|].
      exfalso. assert (tile_equal t t = true) by (apply tile_equal_spec; auto). congruence.
  Qed.

  Lemma add_total : forall f (q : queue) t o, wf q -> sized q -> room f q -> tile_in_reach t ->
    exists q', operation_queue_add q t o = Ok q'.
  Proof.
    intros f q t o W S R Ht. destruct (grow_in_reach q t W S Ht) as (q1 & G).
    destruct (add_ok_iff _ q t o q1 W G) as (I & _). apply I. intros (P & A).
    destruct (grow_ok _ _ _ _ _ W G) as (_ & C1 & _ & Sz & _).
    destruct f as [f|]; cbn [room] in R.
    - destruct R as (Cf & R). apply R. apply A. destruct S as (k & Hk).
      assert (10 <= q_size q).
      { rewrite Hk. assert (1 <= 2 ^ Z.of_nat k); [|lia]. change 1 with (2 ^ 0). apply Z.pow_le_mono_r; lia. }
      apply contains_spec. unfold central in Cf. lia.
    - apply (R t); auto.
  Qed.

  Lemma adds_total : forall f o ts (q : queue), wf q -> sized q -> room f q -> (forall t, In t ts -> tile_in_reach t /\ f <> Some t) ->
    exists q', ofold (fun q t => operation_queue_add q t o) ts q = Ok q' /\ wf q' /\ sized q' /\ room f q'.
  Proof.
    intros f o. induction ts as [|t ts IH]; intros q W S R A.
    - exists q. auto.
    - destruct (A t (or_introl eq_refl)) as (At & Nt). destruct (add_total f q t o W S R At) as (q1 & E).
      cbn [ofold]. rewrite E. cbn [obind]. apply IH.
      + apply (add_spec _ _ _ _ _ W E). + eapply add_sized; eauto. + eapply add_room; eauto.
      + intros t' I. apply A. right. auto.
  Qed.

  Lemma adds_dirty : forall o ts (q q' : queue), wf q -> ofold (fun q t => operation_queue_add q t o) ts q = Ok q' ->
    forall t, In t (q_dirty q') -> In t (q_dirty q) \/ In t ts.
  Proof.
    intros o. induction ts as [|t0 ts IH]; intros q q' W H t I; cbn [ofold] in H.
    - injection H as <-. auto.
    - apply obind_ok in H. destruct H as (q1 & E & H). destruct (add_spec _ _ _ _ _ W E) as (W1 & _ & _).
      destruct (IH _ _ W1 H t I) as [I'|I']; [|right; right; auto].
      destruct (add_dirty_incl _ _ _ _ W E _ I') as [| ->]; auto. right. left. auto.
  Qed.
End Q.
Arguments sized {Op}.
Arguments room {Op}.

(** *** Tiles *)
Section T.
  Variables (Op T : Type) (micro : tile -> Op -> list (T -> outcome T)).
  Variables (P : tile -> T -> Prop) (Q : tile -> Op -> Prop).
  Notation apply := (apply Op T micro).
  Hypothesis total : forall t o v, Q t o -> P t v -> exists v', apply t v o = Ok v' /\ P t v'.
  Notation keeps := (keeps Op T P Q).

  Lemma step_of_total : forall t o v v', Q t o -> P t v -> apply t v o = Ok v' -> P t v'.
  Proof. intros t o v v' q p H. destruct (total t o v q p) as (v2 & E & K). congruence. Qed.

  Lemma result_total : forall can t l v, (forall o, In o l -> Q t o) -> P t v -> is_ok (tile_result Op T micro can t l v).
  Proof.
    intros can t l v A K.
    assert (forall l v, (forall o, In o l -> Q t o) -> P t v -> exists v', ofold (apply t) l v = Ok v') as F.
    { clear - total. induction l as [|o l IH]; intros v A K; [eexists; reflexivity|]. cbn [ofold].
      destruct (total t o v (A o (or_introl eq_refl)) K) as (v1 & -> & K1). cbn [obind]. apply IH; auto. intros. apply A. right. auto. }
    unfold tile_result. destruct l as [|o l]; [eexists; reflexivity|]. destruct (can t); [|eexists; reflexivity].
    destruct (F _ v A K) as (v' & ->). cbn [obind]. eexists. reflexivity.
  Qed.

  Lemma process_total : forall can s t, keeps s -> exists s', process_tile Op T micro can s t = Ok s' /\ keeps s' /\
    q_dirty (sf_q s') = q_dirty (sf_q s) /\ q_size (sf_q s') = q_size (sf_q s).
  Proof.
    intros can s t K. pose proof K as [W Kp Kq].
    pose proof (process_tile_spec Op T micro can s t W) as S.
    destruct (result_total can t _ _ (Kq t) (Kp t)) as ((v, l) & E). rewrite E in S. destruct S as (s' & H & [O _]).
    exists s'. split; auto. split; [eapply process_keeps; [exact step_of_total|exact K|exact H]|]. split; apply O.
  Qed.

  Lemma read_row_total : forall canw canr row s seen, keeps s -> exists s' seen', read_row Op T micro canw canr row s seen = Ok (s', seen') /\
    keeps s' /\ q_dirty (sf_q s') = q_dirty (sf_q s) /\ q_size (sf_q s') = q_size (sf_q s).
  Proof.
    intros canw canr. induction row as [|t row IH]; intros s seen K; cbn [read_row].
    - exists s, seen. auto.
    - destruct (process_total canw s t K) as (s1 & -> & K1 & D1 & S1). cbn [obind]. destruct (canr t); [|exists s1, seen; auto].
      destruct (IH s1 (seen ++ [(t, sf_pix s1 t)]) K1) as (s2 & seen2 & E & K2 & D2 & S2). exists s2, seen2.
      split; [exact E|]. split; auto. split; congruence.
  Qed.

  Lemma read_total : forall canw canr rows s, keeps s -> exists s' seen, read Op T micro canw canr rows s = Ok (s', seen) /\
    q_dirty (sf_q s') = q_dirty (sf_q s) /\ q_size (sf_q s') = q_size (sf_q s).
  Proof.
    intros canw canr rows s K. unfold read. generalize (@nil (tile * T)). revert s K. induction rows as [|row rows IH]; intros s K seen; cbn [ofold].
    - exists s, seen. auto.
    - cbn [fst snd]. destruct (read_row_total canw canr row s seen K) as (s1 & seen1 & -> & K1 & D1 & S1). cbn [obind].
      destruct (IH s1 K1 seen1) as (s2 & seen2 & E & D2 & S2). exists s2, seen2. split; [exact E|]. split; congruence.
  Qed.

  Lemma processes_size : forall can ts s s', keeps s -> ofold (process_tile Op T micro can) ts s = Ok s' -> q_size (sf_q s') = q_size (sf_q s).
  Proof.
    intros can. induction ts as [|t ts IH]; intros s s' K H; cbn [ofold] in H; [congruence|].
    destruct (process_total can s t K) as (s1 & E & K1 & _ & S1). rewrite E in H. cbn [obind] in H. rewrite (IH _ _ K1 H). exact S1.
  Qed.

  Lemma flush_total : forall can s, keeps s -> exists s', flush Op T micro can s = Ok s' /\
    q_dirty (sf_q s') = [] /\ q_size (sf_q s') = q_size (sf_q s).
  Proof.
    intros can s K. pose proof K as [W Kp Kq]. unfold flush.
    destruct (operation_queue_get_dirty_tiles (sf_q s)) as [ts q1] eqn:E.
    destruct (dirty_spec _ _ _ _ W E) as (W1 & D1 & S1 & N1 & I1 & P1).
    assert (keeps (mkSurf q1 (sf_pix s))) as K1 by (constructor; auto; cbn [sf_q]; intros t o; rewrite P1; auto).
    destruct (process_list_total Op T micro can ts (mkSurf q1 (sf_pix s)) W1) as (s2 & E2).
    - exact N1.
    - intros t I. cbn [sf_q sf_pix]. rewrite P1. apply result_total; auto.
    - rewrite E2. cbn [obind]. pose proof (processes_size _ _ _ _ K1 E2) as S2. cbn [sf_q] in S2. rewrite S1 in S2.
      eexists. split; [reflexivity|]. split; [reflexivity|]. exact S2.
  Qed.
End T.
