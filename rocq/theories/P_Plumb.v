(** Properties C04, C05 (ordering part), C39 and C40: dabs reach the pixels of
    their tiles exactly once and in drawing order, whatever the schedule of the
    worker threads, the moments of flushing and the failures on other tiles.

    Everything here holds for every kind of operation [Op], every tile content
    [T] and every effect [micro t o] of an operation on a tile (a list of small
    steps on the buffer of that tile).  P_Dab.v uses it with the real dabs. *)
From Verif Require Import Base Queue QueueProofs Plumb PlumbProofs.

Section Statements.
  Variables (Op T : Type).
  Variable micro : tile -> Op -> list (T -> outcome T).
  Notation run := (run Op T micro).
  Notation flush := (flush Op T micro).
  Notation fresh := (fresh Op T).
  Notation drawn := (drawn Op).
  Notation granted := (granted Op).

  (** the content of tile [t] after the operations [os], one after another *)
  Definition painted (t : tile) (os : list Op) (v : T) : outcome T := ofold (apply Op T micro t) os v.

  (** *** C05: order *)
  (** After a flush a tile shows exactly the dabs drawn on it, in drawing order,
      each once - whatever was read or flushed in between. *)
  Theorem C05_flush_paints_in_order : forall pix0 evs can s out t,
    run (fresh pix0) (evs ++ [End can]) = Ok (s, out) ->
    (forall e, In e (evs ++ [End can]) -> granted t e) ->
    painted t (drawn t evs) (pix0 t) = Ok (sf_pix s t).
  Proof.
    intros pix0 evs can s out t H G. unfold Plumb.run in H. rewrite ofold_app in H.
    apply obind_ok in H. destruct H as ([s1 out1] & E1 & H).
    destruct (run_gen Op T micro evs (fresh pix0) [] s1 out1 t (good_fresh _ _ _ _)) with (2 := E1) as [G1 V1].
    { intros e I. apply G, in_or_app; auto. }
    cbn [ofold ev_step] in H. apply obind_ok in H. destruct H as ([s2 out2] & E2 & H). inversion H; subst; clear H.
    apply obind_ok in E2. destruct E2 as (s3 & E2 & E3). inversion E3; subst; clear E3.
    assert (can t = true) as C by (apply (G (End can)); apply in_or_app; right; left; auto).
    destruct (flush_tile Op T micro can s1 s t G1 C E2) as [_ V2]. rewrite V2, V1.
    unfold view. simpl. rewrite pend_new. reflexivity.
  Qed.

  (** *** C39 *)
  (** A read sees, on every tile it looks at, all dabs drawn before it ... *)
  Theorem C39_read_sees_everything : forall pix0 a canw canr rows b s out,
    run (fresh pix0) (a ++ Read canw canr rows :: b) = Ok (s, out) ->
    (forall t, In t (concat rows) -> forall e, In e (a ++ [Read canw canr rows]) -> granted t e) ->
    let seen := nth (length a) out [] in
    (forall t v, In (t, v) seen -> In t (concat rows) /\ painted t (drawn t a) (pix0 t) = Ok v) /\
    ((forall t, In t (concat rows) -> canr t = true) -> map fst seen = concat rows).
  Proof.
    intros pix0 a canw canr rows b s out H G. unfold Plumb.run in H. rewrite ofold_app in H.
    apply obind_ok in H. destruct H as ([s1 out1] & E1 & H).
    cbn [ofold] in H. apply obind_ok in H. destruct H as ([s2 out2] & E2 & H).
    cbn [ev_step] in E2. apply obind_ok in E2. destruct E2 as ([s3 seen] & E2 & E3). inversion E3; subst; clear E3.
    destruct (run_out_length _ _ _ _ _ _ _ _ E1) as (n1 & E & L1). simpl in E. subst out1.
    destruct (run_out_length _ _ _ _ _ _ _ _ H) as (n2 & -> & L2).
    assert (nth (length a) ((n1 ++ [seen]) ++ n2) [] = seen) as N.
    { rewrite <- app_assoc, app_nth2, L1, Nat.sub_diag by lia. reflexivity. }
    cbv zeta. rewrite N.
    assert (wf (sf_q s1)) as W1.
    { clear - E1. assert (forall evs s out s' out', wf (sf_q s) -> ofold (ev_step Op T micro) evs (s, out) = Ok (s', out') ->
        wf (sf_q s')) as K.
      { induction evs as [|e evs IH]; intros s out s' out' W H; cbn [ofold] in H; [congruence|].
        apply obind_ok in H. destruct H as ([s1' o1] & E & H). eapply IH; [|exact H]. clear H.
        destruct e; cbn [ev_step] in E; apply obind_ok in E.
        - destruct E as (s2 & E & E'). inversion E'; subst. unfold enqueue in E. apply obind_ok in E.
          destruct E as (q & E & E2). inversion E2; subst. eapply enqueue_q; eauto.
        - destruct E as ([s2 sn] & E & E'). inversion E'; subst. eapply read_spec; eauto.
        - destruct E as (s2 & E & E'). inversion E'; subst. eapply flush_spec; eauto. }
      eapply K; [|exact E1]. apply wf_new. }
    destruct (read_spec Op T micro canw canr rows s1 s2 seen W1 E2) as (_ & _ & _ & S1 & S2 & S3).
    split; [|exact S3]. intros t v I. pose proof (S2 _ _ I) as It. split; auto.
    destruct (run_gen Op T micro a (fresh pix0) [] s1 n1 t (good_fresh _ _ _ _)) with (2 := E1) as [G1 V1].
    { intros e Ie. apply (G t It). apply in_or_app; auto. }
    rewrite (S1 t v I).
    - rewrite V1. unfold view. simpl. rewrite pend_new. reflexivity.
    - apply (G t It (Read canw canr rows)). apply in_or_app. right; left; auto.
  Qed.

  (** ... and leaves no trace: removing all reads from a history does not change
      any pixel. *)
  Definition is_read (e : ev Op) : bool := match e with Read _ _ _ => true | _ => false end.
  Theorem C39_reading_leaves_no_trace : forall pix0 evs can s out s' out',
    run (fresh pix0) (evs ++ [End can]) = Ok (s, out) ->
    run (fresh pix0) (filter (fun e => negb (is_read e)) evs ++ [End can]) = Ok (s', out') ->
    forall t, (forall e, In e (evs ++ [End can]) -> granted t e) -> sf_pix s t = sf_pix s' t.
  Proof.
    intros pix0 evs can s out s' out' H H' t G.
    pose proof (C05_flush_paints_in_order _ _ _ _ _ t H G) as P.
    pose proof (C05_flush_paints_in_order _ _ _ _ _ t H') as P'.
    assert (drawn t (filter (fun e => negb (is_read e)) evs) = drawn t evs) as E.
    { clear. induction evs as [|e evs IH]; simpl; auto. destruct e; simpl; rewrite ?IH; auto. }
    rewrite E in P'. assert (Ok (sf_pix s t) = Ok (sf_pix s' t)) as X; [|inversion X; auto].
    rewrite <- P, <- P'; auto. intros e I. apply G. apply in_app_or in I. apply in_or_app. destruct I as [I|I]; auto.
    left. apply filter_In in I. tauto.
  Qed.

  (** *** C04 *)
  (** the workers of a parallel end_atomic, from the state [s], following the
      schedule [sched] (a list saying which worker makes the next step) *)
  Definition parallel (can : tile -> bool) (s : surf Op T) (sched : list nat) : outcome (par Op T) :=
    ofold (worker_step Op T micro can) sched (par_start Op T s).

  Lemma reachable_wf : forall pix0 evs s out, run (fresh pix0) evs = Ok (s, out) -> wf (sf_q s).
  Proof.
    intros pix0 evs s out H. unfold Plumb.run in H.
    assert (forall evs s out s' out', wf (sf_q s) -> ofold (ev_step Op T micro) evs (s, out) = Ok (s', out') ->
        wf (sf_q s')) as K.
    { clear. induction evs as [|e evs IH]; intros s out s' out' W H; cbn [ofold] in H; [congruence|].
      apply obind_ok in H. destruct H as ([s1' o1] & E & H). eapply IH; [|exact H]. clear H.
      destruct e; cbn [ev_step] in E; apply obind_ok in E.
      - destruct E as (s2 & E & E'). inversion E'; subst. unfold enqueue in E. apply obind_ok in E.
        destruct E as (q & E & E2). inversion E2; subst. eapply enqueue_q; eauto.
      - destruct E as ([s2 sn] & E & E'). inversion E'; subst. eapply read_spec; eauto.
      - destruct E as (s2 & E & E'). inversion E'; subst. eapply flush_spec; eauto. }
    eapply K; [|exact H]. apply wf_new.
  Qed.

  (** If the sequential loop succeeds, so does every schedule: it never gets
      stuck, it can be continued until all workers are done, and then every tile
      and every queue content is that of the sequential loop. *)
  Theorem C04_every_schedule_like_sequential : forall pix0 evs s out can s1 sched,
    run (fresh pix0) evs = Ok (s, out) ->
    flush can s = Ok s1 ->
    exists p, parallel can s sched = Ok p /\
      (exists more p', parallel can s (sched ++ more) = Ok p' /\ all_done Op T p') /\
      (all_done Op T p -> forall t,
         sf_pix (par_end Op T p) t = sf_pix s1 t /\
         pend (sf_q (par_end Op T p)) t = pend (sf_q s1) t /\
         q_dirty (sf_q (par_end Op T p)) = q_dirty (sf_q s1)).
  Proof.
    intros pix0 evs s out can s1 sched R F. pose proof (reachable_wf _ _ _ _ R) as W.
    destruct (par_start_inv Op T micro s W) as (ts & I & _ & _ & Hd).
    pose proof (proj1 (flush_ok_iff Op T micro can s W) (ex_intro _ _ F)) as Hok.
    destruct (sched_heading Op T micro can ts sched _ I Hok) as (p & E & Ip & _ & Hp).
    exists p. split; [exact E|]. split.
    - destruct (can_finish Op T micro can ts p Ip) as (more & p' & E' & D').
      { intros t. rewrite Hp. apply Hok. }
      exists more, p'. split; [|exact D']. unfold parallel in *. rewrite ofold_app, E. exact E'.
    - intros D t. destruct (flush_spec Op T micro can s s1 W F) as (W1 & D1 & Q). specialize (Q t).
      pose proof (Hp t) as Ht. rewrite done_heading, Hd in Ht by exact D.
      unfold par_end. cbn [sf_pix sf_q].
      destruct (clear_spec Op (sf_q (p_surf p)) (pi_wf _ _ _ _ Ip)) as (_ & D3 & P3). rewrite D3, P3, D1.
      destruct (in_dec tile_eq_dec t (q_dirty (sf_q s))).
      + rewrite Q in Ht. inversion Ht. auto.
      + inversion Ht. destruct Q as [-> ->]. auto.
  Qed.

  (** Conversely the sequential loop succeeds whenever some schedule completes. *)
  Theorem C04_sequential_like_some_schedule : forall pix0 evs s out can sched p,
    run (fresh pix0) evs = Ok (s, out) ->
    parallel can s sched = Ok p -> all_done Op T p -> is_ok (flush can s).
  Proof.
    intros pix0 evs s out can sched p R E D. pose proof (reachable_wf _ _ _ _ R) as W.
    destruct (par_start_inv Op T micro s W) as (ts & I & _ & _ & _).
    apply (flush_ok_iff Op T micro can s W). intros t.
    rewrite <- (sched_heading_ok Op T micro can ts sched _ _ I E).
    rewrite done_heading by exact D. eexists; reflexivity.
  Qed.

  (** *** C40 *)
  (** Failed requests elsewhere do not matter: [granted] above speaks about the
      requests for tile [t] only, the backend may refuse any other tile at any
      time.  Spelled out: *)
  Theorem C40_other_tiles_painted : forall pix0 evs can s out t,
    (forall e, In e (evs ++ [End can]) -> granted t e) ->
    run (fresh pix0) (evs ++ [End can]) = Ok (s, out) ->
    painted t (drawn t evs) (pix0 t) = Ok (sf_pix s t).
  Proof. intros. eapply C05_flush_paints_in_order; eauto. Qed.

  (** The failing tile itself.  The full claim - dabs drawn after the failure are
      painted by their own end_atomic - is refuted below; it does hold when at
      most one dab was waiting on the tile when its request failed.  That dab is
      lost, nothing else is. *)
  Definition is_draw (e : ev Op) : bool := match e with Draw _ _ => true | _ => false end.

  Theorem C40_failing_tile_partial : forall pix0 before can0 waiting failing after can1 s out t,
    run (fresh pix0) (before ++ End can0 :: waiting ++ End failing :: after ++ [End can1]) = Ok (s, out) ->
    (forall e, In e (before ++ [End can0]) -> granted t e) ->
    (forall e, In e waiting -> is_draw e = true) ->
    (length (drawn t waiting) <= 1)%nat ->
    failing t = false ->
    (forall e, In e (after ++ [End can1]) -> granted t e) ->
    painted t (drawn t before ++ drawn t after) (pix0 t) = Ok (sf_pix s t).
  Proof.
    intros pix0 before can0 waiting failing after can1 s out t H G0 Dw Lw Ft G1. unfold Plumb.run in H.
    replace (before ++ End can0 :: waiting ++ End failing :: after ++ [End can1])
      with ((before ++ [End can0]) ++ waiting ++ [End failing] ++ after ++ [End can1]) in H
      by (rewrite <- app_assoc; reflexivity).
    rewrite ofold_app in H. apply obind_ok in H. destruct H as ([s1 o1] & E1 & H).
    rewrite ofold_app in H. apply obind_ok in H. destruct H as ([s2 o2] & E2 & H).
    rewrite ofold_app in H. apply obind_ok in H. destruct H as ([s3 o3] & E3 & H).
    (* after the first flush *)
    pose proof (C05_flush_paints_in_order pix0 before can0 s1 o1 t E1 G0) as V1.
    pose proof (reachable_wf _ _ _ _ E1) as W1.
    assert (pend (sf_q s1) t = [] /\ good Op T s1 t) as [P1 Gd1].
    { rewrite ofold_app in E1. apply obind_ok in E1. destruct E1 as ([s0 o0] & E0 & E1).
      destruct (run_gen Op T micro before (fresh pix0) [] s0 o0 t (good_fresh _ _ _ _)) with (2 := E0) as [Gd _].
      { intros e I. apply G0, in_or_app; auto. }
      cbn [ofold ev_step] in E1. apply obind_ok in E1. destruct E1 as ([sx ox] & Ex & E1). inversion E1; subst; clear E1.
      apply obind_ok in Ex. destruct Ex as (sy & Ex & Ey). inversion Ey; subst; clear Ey.
      assert (can0 t = true) as C by (apply (G0 (End can0)); apply in_or_app; right; left; auto).
      destruct (flush_tile Op T micro can0 s0 s1 t Gd C Ex) as [P _]. split; auto.
      constructor; auto. intros N. contradiction. }
    (* the waiting dabs *)
    assert (wf (sf_q s2) /\ pend (sf_q s2) t = drawn t waiting /\ sf_pix s2 t = sf_pix s1 t /\ good Op T s2 t)
      as (W2 & P2 & X2 & Gd2).
    { rewrite <- (app_nil_l (drawn t waiting)), <- P1. clear - E2 Dw Gd1. revert s1 o1 E2 Gd1.
      induction waiting as [|e w IH]; intros s1 o1 E2 Gd1; cbn [ofold] in E2.
      - inversion E2; subst. simpl. rewrite app_nil_r. destruct Gd1. auto using Build_good.
      - apply obind_ok in E2. destruct E2 as ([sx ox] & Ex & E2).
        pose proof (Dw e (or_introl eq_refl)) as De. destruct e as [o ts| |]; try discriminate.
        cbn [ev_step] in Ex. apply obind_ok in Ex. destruct Ex as (sy & Ex & Ey). inversion Ey; subst; clear Ey.
        unfold enqueue in Ex. apply obind_ok in Ex. destruct Ex as (q & Ex & Ey). inversion Ey; subst; clear Ey.
        destruct (enqueue_q Op o ts _ _ (good_wf _ _ _ _ Gd1) Ex) as (Wq & Pq & Mq).
        destruct (IH (fun e I => Dw e (or_intror I)) _ _ E2) as (A & B & C & D).
        { constructor; [exact Wq|]. apply Mq, (good_mark _ _ _ _ Gd1). }
        split; [auto|]. split; [|auto]. rewrite B. cbn [sf_q]. rewrite Pq. simpl. now rewrite app_assoc. }
    (* the failed flush *)
    cbn [ofold ev_step] in E3. apply obind_ok in E3. destruct E3 as ([sx ox] & Ex & E3). inversion E3; subst; clear E3.
    apply obind_ok in Ex. destruct Ex as (sy & Ex & Ey). inversion Ey; subst; clear Ey.
    destruct (flush_spec Op T micro failing s2 s3 W2 Ex) as (W3 & D3 & Q). specialize (Q t).
    assert (pend (sf_q s3) t = [] /\ sf_pix s3 t = sf_pix s1 t) as [P3 X3].
    { rewrite <- X2. destruct (in_dec tile_eq_dec t (q_dirty (sf_q s2))) as [I|I].
      - unfold tile_result in Q. rewrite Ft, P2 in Q. destruct (drawn t waiting) as [|o [|o' r]]; simpl in Lw; [| |lia];
          inversion Q; auto.
      - destruct Q as [-> ->]. rewrite P2. split; auto. destruct (drawn t waiting) eqn:Z; auto.
        exfalso. apply I, (good_mark _ _ _ _ Gd2). rewrite P2. discriminate. }
    (* the rest *)
    rewrite ofold_app in H. apply obind_ok in H. destruct H as ([s4 o4] & E4 & H).
    destruct (run_gen Op T micro after s3 (o2 ++ [[]]) s4 o4 t) with (3 := E4) as [Gd4 V4].
    { constructor; auto. intros N; contradiction. }
    { intros e I. apply G1, in_or_app; auto. }
    cbn [ofold ev_step] in H. apply obind_ok in H. destruct H as ([s5 o5] & E5 & H). inversion H; subst; clear H.
    apply obind_ok in E5. destruct E5 as (s6 & E5 & E6). inversion E6; subst; clear E6.
    assert (can1 t = true) as C by (apply (G1 (End can1)); apply in_or_app; right; left; auto).
    destruct (flush_tile Op T micro can1 s4 s t Gd4 C E5) as [_ V5]. rewrite V5, V4.
    unfold painted in *. rewrite ofold_app, V1. unfold view. rewrite P3, X3. reflexivity.
  Qed.
End Statements.

(** ** Concrete cases.  Operations are numbers, a tile records the numbers
    painted on it; tile (0,0) and tile (1,0). *)
Definition note (t : tile) (o : Z) : list (list Z -> outcome (list Z)) := [fun v => Ok v; fun v => Ok (v ++ [o])].
Definition all (t : tile) : bool := true.
Definition not_00 (t : tile) : bool := negb (tile_equal t (0, 0)).
Definition final (evs : list (ev Z)) : option (list Z * list Z) :=
  match run Z (list Z) note (fresh Z (list Z) (fun _ => [])) evs with
  | Ok (s, _) => Some (sf_pix s (0, 0), sf_pix s (1, 0))
  | _ => None
  end.

(** The hypotheses of C05 / C39 hold for a history with a read in the middle. *)
Definition story : list (ev Z) :=
  [Draw 1 [(0, 0); (1, 0)]; Draw 2 [(0, 0)]; Read all all [[(0, 0)]]; Draw 3 [(1, 0); (0, 0)]].
Example C05_case : final (story ++ [End all]) = Some ([1; 2; 3], [1; 3]) /\
  drawn Z (0, 0) story = [1; 2; 3] /\ drawn Z (1, 0) story = [1; 3].
Proof. repeat split; vm_compute; reflexivity. Qed.

(** C04: two workers, interleaved step by step *)
Example C04_case :
  exists s out p, run Z (list Z) note (fresh Z (list Z) (fun _ => [])) [Draw 1 [(0, 0); (1, 0)]; Draw 2 [(0, 0)]] = Ok (s, out) /\
    parallel Z (list Z) note all s [0; 1; 0; 1; 1; 0; 1; 0; 0; 0; 0]%nat = Ok p /\
    map snd (p_work p) = [Done; Done] /\ sf_pix (p_surf p) (0, 0) = [1; 2] /\ sf_pix (p_surf p) (1, 0) = [1].
Proof. do 3 eexists. split; [vm_compute; reflexivity|]. split; [vm_compute; reflexivity|]. vm_compute. auto. Qed.

(** C40: one waiting dab is lost, the rest is painted *)
Example C40_case : final [Draw 1 [(0, 0); (1, 0)]; End all; Draw 2 [(0, 0); (1, 0)]; End not_00; Draw 3 [(0, 0); (1, 0)]; End all]
  = Some ([1; 3], [1; 2; 3]).
Proof. vm_compute. reflexivity. Qed.

(** C40, second half, is false of the code: with two dabs waiting on the tile
    when its request fails, one of them stays in the tile's fifo; a dab drawn
    later finds the fifo non-empty, does not mark the tile dirty, and its own
    end_atomic - with every request granted - does not paint it. *)
Theorem C40_later_dab_not_flushed_refuted :
  exists before later t, ~ In (Draw later [t]) before /\
    final (before ++ [Draw later [t]; End all]) = final (before ++ [End all]) /\
    final (before ++ [Draw later [t]; End all]) = Some ([], []).
Proof.
  exists [Draw 1 [(0, 0)]; Draw 2 [(0, 0)]; End not_00], 3, (0, 0).
  split; [|split; vm_compute; reflexivity].
  intros [E|[E|[E|[]]]]; discriminate.
Qed.

Print Assumptions C05_flush_paints_in_order.
Print Assumptions C39_read_sees_everything.
Print Assumptions C39_reading_leaves_no_trace.
Print Assumptions C04_every_schedule_like_sequential.
Print Assumptions C04_sequential_like_some_schedule.
Print Assumptions C40_other_tiles_painted.
Print Assumptions C40_failing_tile_partial.
Print Assumptions C40_later_dab_not_flushed_refuted.
