(** Properties C29 and C30: smudge buckets and resetting a brush. *)
From Verif Require Import Base F32 F32Proofs Arith Color Mapping P_Mapping Settings Spectral Brush BrushProofs BrushInst BrushToy.
From Coq Require Import Reals Lra.
From Flocq Require Import Core.Core IEEE754.BinarySingleNaN.
Local Open Scope Z_scope.

(** ** Nine cells at an offset *)
Section Cells.
  Context {M : mixed}.
  Notation S := (car (sng M)).
  Notation bucket := (bucket M).

  Lemma nine : forall l : list S, length l = 9%nat -> exists k : bucket, l = bucket_list k.
  Proof.
    intros l H. do 9 (destruct l as [|? l]; [discriminate H|]). destruct l; [|discriminate H].
    eexists (mkBucket (_, _, _, _) (_, _, _, _) _). reflexivity.
  Qed.
  Lemma list_inj : forall k k' : bucket, bucket_list k = bucket_list k' -> k = k'.
  Proof.
    intros [[[[r g] bl] a] [[[pr pg] pb] pa] rc] [[[[r' g'] bl'] a'] [[[pr' pg'] pb'] pa'] rc'] H.
    cbn in H. injection H. intros. subst. reflexivity.
  Qed.
  Lemma read9_spec : forall (l : list S) off k,
    read9 l off = Ok k <-> 0 <= off /\ firstn 9 (skipn (Z.to_nat off) l) = bucket_list k.
  Proof.
    intros l off k. unfold read9. destruct (Z.ltb_spec off 0) as [H|H].
    - split; [discriminate|lia].
    - split.
      + intros R. split; [lia|]. destruct (firstn 9 (skipn (Z.to_nat off) l)) as [|a0 [|a1 [|a2 [|a3 [|a4 [|a5 [|a6 [|a7 [|a8 [|]]]]]]]]]]; try discriminate R.
        injection R as <-. reflexivity.
      + intros [_ R]. rewrite R. destruct k as [[[[r g] bl] a] [[[pr pg] pb] pa] rc]. reflexivity.
  Qed.
  Lemma read9_ok : forall (l : list S) off, 0 <= off -> off + 9 <= Z.of_nat (length l) -> exists k, read9 l off = Ok k.
  Proof.
    intros l off H1 H2. destruct (nine (firstn 9 (skipn (Z.to_nat off) l))) as [k K].
    { rewrite firstn_length, skipn_length. lia. }
    exists k. apply read9_spec. auto.
  Qed.
  Lemma write9_ok : forall (l : list S) off k, 0 <= off -> off + 9 <= Z.of_nat (length l) -> exists l', write9 l off k = Ok l'.
  Proof.
    intros l off k H1 H2. unfold write9. rewrite (proj2 (Z.leb_le _ _) H1), (proj2 (Z.leb_le _ _) H2). cbn. eauto.
  Qed.
  Lemma read_write_same : forall (l : list S) off k l', write9 l off k = Ok l' -> read9 l' off = Ok k.
  Proof.
    intros l off k l' H. apply write9_length in H. destruct H as (P & Lo & _ & ->). apply read9_spec. split; [auto|].
    rewrite skipn_app, skipn_all2, firstn_length by (rewrite firstn_length; lia).
    replace (Z.to_nat off - Nat.min (Z.to_nat off) (length l))%nat with 0%nat by lia. cbn [skipn app].
    rewrite firstn_app, firstn_all2, bucket_list_length by (rewrite bucket_list_length; lia).
    cbn [Nat.sub firstn]. apply app_nil_r.
  Qed.
  Lemma firstn_skipn_nth : forall (l : list S) n k (z : S), (n + k <= length l)%nat ->
    firstn k (skipn n l) = map (fun i => nth (n + i) l z) (seq 0 k).
  Proof.
    intros l n k z. revert l n. induction k as [|k IH]; intros l n H; [reflexivity|].
    destruct (skipn n l) as [|a l'] eqn:E.
    { assert (length (skipn n l) = 0%nat) as Hl by (rewrite E; reflexivity). rewrite skipn_length in Hl. lia. }
    cbn [firstn seq map]. rewrite Nat.add_0_r. f_equal.
    - assert (nth 0 (skipn n l) z = a) as N by (rewrite E; reflexivity). rewrite <- N.
      rewrite <- (firstn_skipn n l) at 2. rewrite app_nth2; rewrite firstn_length; [|lia].
      f_equal. lia.
    - assert (l' = skipn (Datatypes.S n) l) as ->.
      { clear - E. revert l E. induction n as [|n IHn]; intros [|c l] E; cbn in E; try discriminate E.
        - injection E as _ <-. reflexivity.
        - apply IHn in E. exact E. }
      rewrite IH by lia. rewrite <- seq_shift, map_map. apply map_ext. intros i. f_equal. lia.
  Qed.
  Lemma nth_written : forall (l : list S) off k l' i z, write9 l off k = Ok l' ->
    nth i l' z = if (off <=? Z.of_nat i) && (Z.of_nat i <? off + 9) then nth (i - Z.to_nat off) (bucket_list k) z else nth i l z.
  Proof.
    intros l off k l' i z H. apply write9_length in H. destruct H as (P & Lo & _ & ->).
    assert (length (firstn (Z.to_nat off) l) = Z.to_nat off) as Lf by (rewrite firstn_length; lia).
    destruct (Z.leb_spec off (Z.of_nat i)); cbn [andb].
    - rewrite app_nth2, Lf by (rewrite Lf; lia). destruct (Z.ltb_spec (Z.of_nat i) (off + 9)).
      + apply app_nth1. rewrite bucket_list_length. lia.
      + rewrite app_nth2, bucket_list_length by (rewrite bucket_list_length; lia).
        rewrite <- (firstn_skipn (Z.to_nat off + 9) l) at 2.
        assert (length (firstn (Z.to_nat off + 9) l) = (Z.to_nat off + 9)%nat) as Lg by (rewrite firstn_length; lia).
        rewrite (app_nth2 (firstn _ _)), Lg by (rewrite Lg; lia). f_equal. lia.
    - rewrite app_nth1 by (rewrite Lf; lia). rewrite <- (firstn_skipn (Z.to_nat off) l) at 2.
      rewrite app_nth1 by (rewrite Lf; lia). reflexivity.
  Qed.
  (** reading gives the nine cells *)
  Lemma read9_cells : forall (l : list S) off k (z : S), 0 <= off -> off + 9 <= Z.of_nat (length l) ->
    (read9 l off = Ok k <-> map (fun i => nth (Z.to_nat off + i) l z) (seq 0 9) = bucket_list k).
  Proof.
    intros l off k z H1 H2. rewrite read9_spec, (firstn_skipn_nth l _ 9 z) by lia. tauto.
  Qed.
  Lemma read_write_other : forall (l : list S) off k l' j, write9 l off k = Ok l' -> 0 <= j -> j + 9 <= Z.of_nat (length l) ->
    off + 9 <= j \/ j + 9 <= off -> read9 l' j = read9 l j.
  Proof.
    intros l off k l' j W H1 H2 D. pose proof (write9_length _ _ _ _ W) as (P & _ & Ll & _).
    destruct (read9_ok l j H1 H2) as [k1 R1]. rewrite R1.
    apply (read9_cells _ _ _ (nofZ 0)); [auto|rewrite Ll; auto|]. apply (read9_cells _ _ _ (nofZ 0)) in R1; auto. rewrite <- R1.
    apply map_ext_in. intros i Hi. apply in_seq in Hi. rewrite (nth_written _ _ _ _ _ _ W).
    destruct (Z.leb_spec off (Z.of_nat (Z.to_nat j + i))); cbn [andb]; [|reflexivity].
    destruct (Z.ltb_spec (Z.of_nat (Z.to_nat j + i)) (off + 9)); [lia|reflexivity].
  Qed.
End Cells.

Section Buckets.
  Context {M : mixed} (L : mathlib M) {E : env M}.
  Notation S := (car (sng M)).
  Notation bucket := (bucket M).
  Notation brush := (brush E).

  (** the bucket the engine itself uses for number [i] *)
  Definition engine_bucket (b : brush) (i : Z) : outcome bucket := read_place b (InBuckets (i * 9)).

  Lemma memory : forall b : brush, reachable L b -> forall i, 0 <= i < b_nbuckets b ->
    exists mem, b_buckets b = Some mem /\ Z.of_nat (length mem) = b_nbuckets b * 9.
  Proof.
    intros b R i Hi. apply reachable_shape in R. destruct R as (_ & _ & _ & B). unfold bok in B.
    destruct (b_buckets b) as [mem|]; cbn [buckets_ok] in B; [|lia]. exists mem. tauto.
  Qed.

  (** ** C29 *)
  (** A bucket's colours can be set and read back; buckets nine or more numbers
      apart do not affect each other, the engine sees what was set for bucket 0,
      and numbers beyond the capacity are refused.  For numbers closer to each
      other the claim is false, see below. *)
  Theorem C29_read_back_partial : forall (b : brush) i k, reachable L b -> 0 <= i < b_nbuckets b ->
    exists b', set_bucket_state b i k = Ok (true, b') /\ get_bucket_state b' i = Ok (Some k) /\
      (forall j, 0 <= j < b_nbuckets b -> i + 9 <= j \/ j + 9 <= i -> get_bucket_state b' j = get_bucket_state b j) /\
      (i = 0 -> engine_bucket b' 0 = Ok k).
  Proof.
    intros b i k R Hi. destruct (memory b R i Hi) as (mem & Em & Lm). unfold set_bucket_state.
    rewrite (proj2 (Z.ltb_lt _ _) (proj2 Hi)), Em. destruct (write9_ok mem i k) as [mem' W]; [lia..|]. rewrite W. cbn [obind].
    eexists. split; [reflexivity|]. unfold get_bucket_state, engine_bucket, read_place. cbn [with_buckets b_nbuckets b_buckets].
    rewrite (proj2 (Z.ltb_lt _ _) (proj2 Hi)), (read_write_same _ _ _ _ W). cbn [obind]. split; [reflexivity|]. split.
    - intros j Hj D. rewrite (proj2 (Z.ltb_lt _ _) (proj2 Hj)), Em. rewrite (read_write_other _ _ _ _ j W); [reflexivity|lia..].
    - intros ->. apply (read_write_same _ _ _ _ W).
  Qed.
  Theorem C29_out_of_range : forall (b : brush) i k, b_nbuckets b <= i ->
    set_bucket_state b i k = Ok (false, b) /\ get_bucket_state b i = Ok None.
  Proof.
    intros b i k H. unfold set_bucket_state, get_bucket_state. destruct (Z.ltb_spec i (b_nbuckets b)); [lia|]. auto.
  Qed.
  (** Inside the engine different numbers are different buckets. *)
  Theorem C29_engine_independent : forall (b : brush) i j k b', reachable L b -> 0 <= i < b_nbuckets b -> 0 <= j < b_nbuckets b -> i <> j ->
    write_place b (InBuckets (i * 9)) k = Ok b' -> engine_bucket b' i = Ok k /\ engine_bucket b' j = engine_bucket b j.
  Proof.
    intros b i j k b' R Hi Hj N W. destruct (memory b R i Hi) as (mem & Em & Lm). unfold engine_bucket, read_place, write_place in *.
    rewrite Em in *. apply obind_ok in W. destruct W as (mem' & W & Eb). apply Ok_inj in Eb. subst b'. cbn [with_buckets b_buckets].
    split; [eapply read_write_same; eauto|]. eapply read_write_other; eauto; lia.
  Qed.
  (** Two neighbouring buckets overlap: setting the second one destroys the
      first, whatever brush and whatever colours (only the green of the first
      and the red of the second have to differ). *)
  Theorem C29_neighbours_refuted : forall (b : brush) i r0 g0 bl0 a0 prev0 rec0 r1 g1 bl1 a1 prev1 rec1 b1 b2,
    reachable L b -> 0 <= i -> i + 1 < b_nbuckets b -> g0 <> r1 ->
    set_bucket_state b i (mkBucket (r0, g0, bl0, a0) prev0 rec0) = Ok (true, b1) ->
    set_bucket_state b1 (i + 1) (mkBucket (r1, g1, bl1, a1) prev1 rec1) = Ok (true, b2) ->
    get_bucket_state b2 i <> Ok (Some (mkBucket (r0, g0, bl0, a0) prev0 rec0)).
  Proof.
    intros b i r0 g0 bl0 a0 prev0 rec0 r1 g1 bl1 a1 prev1 rec1 b1 b2 R H0 H1 N S1 S2 G.
    destruct (memory b R i) as (mem & Em & Lm); [lia|]. unfold set_bucket_state in S1, S2. rewrite (proj2 (Z.ltb_lt i _)), Em in S1 by lia.
    apply obind_ok in S1. destruct S1 as (m1 & W1 & S1). apply Ok_inj in S1. injection S1 as <-.
    cbn [with_buckets b_nbuckets b_buckets] in S2. rewrite (proj2 (Z.ltb_lt (i + 1) _)) in S2 by lia.
    apply obind_ok in S2. destruct S2 as (m2 & W2 & S2). apply Ok_inj in S2. injection S2 as <-.
    unfold get_bucket_state in G. cbn [with_buckets b_nbuckets b_buckets] in G. rewrite (proj2 (Z.ltb_lt i _)) in G by lia.
    apply obind_ok in G. destruct G as (k & Rk & G). injection G as ->.
    pose proof (write9_length _ _ _ _ W1) as (_ & _ & L1 & _). pose proof (write9_length _ _ _ _ W2) as (_ & _ & L2 & _).
    apply (read9_cells _ _ _ (nofZ 0)) in Rk; [|lia..]. cbn [seq map] in Rk. destruct prev0 as [[[p q] u] v]. cbn in Rk. injection Rk. intros.
    apply N. match goal with [ HH : _ = g0 |- _ ] => rewrite <- HH end. rewrite (nth_written _ _ _ _ _ _ W2).
    destruct (Z.leb_spec (i + 1) (Z.of_nat (Z.to_nat i + 1))); [|lia].
    destruct (Z.ltb_spec (Z.of_nat (Z.to_nat i + 1)) (i + 1 + 9)); [|lia]. cbn [andb].
    replace (Z.to_nat i + 1 - Z.to_nat (i + 1))%nat with 0%nat by lia. destruct prev1 as [[[? ?] ?] ?]. reflexivity.
  Qed.
  (** What a program sets for bucket 1 never reaches the engine's bucket 1: the
      engine still sees its old sampled colour and age. *)
  Theorem C29_engine_refuted : forall (b : brush) k b' old, reachable L b -> 1 < b_nbuckets b ->
    engine_bucket b 1 = Ok old -> set_bucket_state b 1 k = Ok (true, b') ->
    exists seen, engine_bucket b' 1 = Ok seen /\ bk_prev seen = bk_prev old /\ bk_recent seen = bk_recent old.
  Proof.
    intros b k b' old R H Eo S1. destruct (memory b R 1) as (mem & Em & Lm); [lia|]. unfold set_bucket_state in S1.
    rewrite (proj2 (Z.ltb_lt 1 _)), Em in S1 by lia. apply obind_ok in S1. destruct S1 as (m1 & W1 & S1). apply Ok_inj in S1. injection S1 as <-.
    unfold engine_bucket, read_place in *. rewrite Em in Eo. cbn [with_buckets b_buckets].
    pose proof (write9_length _ _ _ _ W1) as (_ & _ & L1 & _).
    destruct (read9_ok m1 (1 * 9)) as [seen Es]; [lia..|]. exists seen. split; [exact Es|].
    apply (read9_cells _ _ _ (nofZ 0)) in Eo; [|lia..]. apply (read9_cells _ _ _ (nofZ 0)) in Es; [|lia..].
    change (Z.to_nat (1 * 9)) with 9%nat in *. cbn [seq map Nat.add] in Eo, Es.
    rewrite !(nth_written _ _ _ _ _ _ W1) in Es. cbn [Z.of_nat Nat.add] in Es.
    destruct old as [[[[r g] bl] a] [[[pr pg] pb] pa] rc], seen as [[[[r' g'] bl'] a'] [[[pr' pg'] pb'] pa'] rc'].
    cbn in Eo, Es |- *. injection Eo. injection Es. intros. subst. auto.
  Qed.
End Buckets.

(** A brush with 12 buckets to which all of this applies: setting bucket 4 after
    bucket 3 changes what bucket 3 gives back (its green has become the red of
    bucket 4), while bucket 0 is unaffected. *)
Definition plain (r g b : Z) : bucket mix64 :=
  mkBucket (M := mix64) (flit r 4, flit g 4, flit b 4, f1) (f0, f0, f0, f0) f0.
Example C29_case : exists (b b' : brush toy) w, session 12 [] = Ok (Some (b, w)) /\ reachable toy_lib b /\ b_nbuckets b = 12 /\
  (let* (_, b) := set_bucket_state b 3 (plain 1 2 3) in set_bucket_state b 4 (plain 3 1 1)) = Ok (true, b') /\
  match get_bucket_state b' 3 with Ok (Some k) => let '(r, g, _, _) := bk_smudge k in feq r (flit 1 4) && feq g (flit 3 4) | _ => false end = true /\
  get_bucket_state b' 12 = Ok None.
Proof.
  destruct (after_ok 12 [] (fun b w => (b_nbuckets b =? 12) &&
            match (let* (_, b) := set_bucket_state b 3 (plain 1 2 3) in set_bucket_state b 4 (plain 3 1 1)) with
            | Ok (true, b') => match get_bucket_state b' 3 with Ok (Some k) => let '(r, g, _, _) := bk_smudge k in feq r (flit 1 4) && feq g (flit 3 4) | _ => false end
            | _ => false end) ltac:(vm_compute; reflexivity)) as (b & w & Es & H).
  apply andb_prop in H. destruct H as [H1 H2]. apply Z.eqb_eq in H1.
  destruct (let* (_, b) := set_bucket_state b 3 (plain 1 2 3) in set_bucket_state b 4 (plain 3 1 1)) as [[[|] b']| |] eqn:E2; try discriminate H2.
  exists b, b', w. split; [exact Es|]. split; [eapply session_reachable; [|exact Es]; lia|]. split; [exact H1|]. split; [exact E2|]. split; [exact H2|].
  apply obind_ok in E2. destruct E2 as ((r1, b1) & E1 & E2).
  assert (forall (x : brush toy) i k r y, set_bucket_state x i k = Ok (r, y) -> b_nbuckets y = b_nbuckets x) as Hn.
  { intros x i k r y Hx. unfold set_bucket_state in Hx. destruct (i <? b_nbuckets x); [|injection Hx as _ <-; auto].
    destruct (b_buckets x); [|discriminate]. apply obind_ok in Hx. destruct Hx as (m & _ & Hx). injection Hx as _ <-. reflexivity. }
  unfold get_bucket_state. rewrite (Hn _ _ _ _ _ E2), (Hn _ _ _ _ _ E1), H1. reflexivity.
Qed.

Print Assumptions C29_read_back_partial.
Print Assumptions C29_neighbours_refuted.
Print Assumptions C29_engine_refuted.
