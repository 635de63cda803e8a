(** Proofs about the operation queue (Queue.v). *)
From Verif Require Import Base Queue.
From Coq Require Import ZifyBool Permutation FinFun.

Lemma tile_equal_spec : forall a b, tile_equal a b = true <-> a = b.
Proof.
  intros [a1 a2] [b1 b2]. unfold tile_equal. simpl. rewrite andb_true_iff, !Z.eqb_eq.
  split; [intros [-> ->]; auto | intros E; inversion E; auto].
Qed.

Lemma tile_eq_dec : forall a b : tile, {a = b} + {a <> b}.
Proof. decide equality; apply Z.eq_dec. Defined.

Lemma contains_spec : forall n t,
  tile_map_contains n t = true <-> (- n <= fst t < n /\ - n <= snd t < n).
Proof. intros. unfold tile_map_contains. lia. Qed.

Lemma offset_range : forall n t,
  tile_map_contains n t = true -> 0 <= tile_offset n t < map_size n.
Proof.
  intros n t H. apply contains_spec in H. unfold tile_offset, map_size.
  destruct t as [x y]; cbn [fst snd] in *.
  remember (n + y) as a. remember (n + x) as b.
  assert (0 <= a <= 2 * n - 1) by lia. assert (0 <= b <= 2 * n - 1) by lia.
  assert (a * (n * 2) <= (2 * n - 1) * (n * 2)) by (apply Z.mul_le_mono_nonneg_r; lia).
  assert (0 <= a * (n * 2)) by (apply Z.mul_nonneg_nonneg; lia).
  replace (2 * n * 2 * n) with ((2 * n - 1) * (n * 2) + 2 * n) by ring.
  generalize dependent (a * (n * 2)). generalize ((2 * n - 1) * (n * 2)). intros. lia.
Qed.

Lemma map_size_mono : forall a b, 0 <= a <= b -> map_size a <= map_size b.
Proof. intros. unfold map_size. nia. Qed.

Lemma offset_inj : forall n t t',
  tile_map_contains n t = true -> tile_map_contains n t' = true ->
  tile_offset n t = tile_offset n t' -> t = t'.
Proof.
  intros n [x y] [x' y'] H H' E. apply contains_spec in H, H'.
  unfold tile_offset in E. cbn [fst snd] in *.
  assert (y = y').
  { destruct (Z.lt_trichotomy y y') as [L|[E1|L]]; auto; exfalso.
    - assert ((n + y + 1) * (n * 2) <= (n + y') * (n * 2)) by (apply Z.mul_le_mono_nonneg_r; lia). lia.
    - assert ((n + y' + 1) * (n * 2) <= (n + y) * (n * 2)) by (apply Z.mul_le_mono_nonneg_r; lia). lia. }
  subst. f_equal. lia.
Qed.

Lemma offset_ok : forall n t,
  tile_map_contains n t = true -> tile_map_offset n t = Ok (Z.to_nat (tile_offset n t)).
Proof.
  intros n t H. pose proof (offset_range n t H). unfold tile_map_offset.
  replace (tile_offset n t <? map_size n) with true by lia.
  replace (tile_offset n t >=? 0) with true by lia. reflexivity.
Qed.

Section P.
  Variable Op : Type.
  Notation slot := (slot Op). Notation queue := (queue Op).

  Definition wfmap (n : Z) (m : list slot) : Prop :=
    0 < n /\ Z.of_nat (length m) = map_size n.

  Definition look (n : Z) (m : list slot) (t : tile) : slot :=
    nth (Z.to_nat (tile_offset n t)) m None.

  Lemma get_ok : forall n m t, wfmap n m -> tile_map_contains n t = true ->
    tile_map_get n m t = Ok (look n m t).
  Proof.
    intros n m t [Hn Hl] Hc. pose proof (offset_range n t Hc).
    unfold tile_map_get. rewrite offset_ok; auto. simpl.
    destruct (nth_error m (Z.to_nat (tile_offset n t))) eqn:E.
    - unfold look. erewrite nth_error_nth; eauto.
    - apply nth_error_None in E. lia.
  Qed.

  Lemma set_ok : forall n m t s, wfmap n m -> tile_map_contains n t = true ->
    exists m', tile_map_set n m t s = Ok m' /\ wfmap n m' /\
      (forall t', tile_map_contains n t' = true ->
         look n m' t' = if tile_equal t t' then s else look n m t').
  Proof.
    intros n m t s [Hn Hl] Hc. pose proof (offset_range n t Hc).
    unfold tile_map_set. rewrite offset_ok; auto. simpl.
    destruct (Nat.ltb_spec (Z.to_nat (tile_offset n t)) (length m)); [|lia].
    eexists. split; [reflexivity|]. split.
    - split; auto. rewrite upd_length; auto.
    - intros t' Hc'. unfold look. rewrite nth_upd.
      pose proof (offset_range n t' Hc').
      destruct (tile_equal t t') eqn:E.
      + apply tile_equal_spec in E. subst.
        rewrite Nat.eqb_refl. simpl. destruct (Nat.ltb_spec (Z.to_nat (tile_offset n t')) (length m)); auto. lia.
      + destruct (Nat.eqb_spec (Z.to_nat (tile_offset n t)) (Z.to_nat (tile_offset n t'))); auto.
        assert (t = t') by (apply (offset_inj n); auto; lia).
        subst. rewrite (proj2 (tile_equal_spec t' t') eq_refl) in E. discriminate.
  Qed.

  Lemma in_all_tiles : forall n t, In t (all_tiles n) <-> tile_map_contains n t = true.
  Proof.
    intros n [x y]. unfold all_tiles. rewrite in_flat_map, contains_spec. cbn [fst snd]. split.
    - intros (y' & Hy & Hx). apply in_map_iff in Hx. destruct Hx as (x' & E & Hx).
      inversion E; subst. apply in_zrange in Hx, Hy. lia.
    - intros. exists y. split; [apply in_zrange; lia|].
      apply in_map_iff. exists x. split; auto. apply in_zrange. lia.
  Qed.

  Lemma all_tiles_length : forall n, 0 <= n -> Z.of_nat (length (all_tiles n)) = map_size n.
  Proof.
    intros n Hn. unfold all_tiles.
    assert (forall l : list Z, length (flat_map (fun y : Z => map (fun x : Z => (x, y)) (zrange (- n) (Z.to_nat (2 * n)))) l)
              = (length l * Z.to_nat (2 * n))%nat) as E.
    { induction l; simpl; auto. rewrite app_length, map_length, zrange_length, IHl. reflexivity. }
    rewrite E, zrange_length. unfold map_size. nia.
  Qed.

  Lemma NoDup_all_tiles : forall n, NoDup (all_tiles n).
  Proof.
    intros n. unfold all_tiles.
    pose proof (NoDup_zrange (-n) (Z.to_nat (2*n))) as N.
    revert N. generalize (zrange (-n) (Z.to_nat (2*n))). intros xs Hx.
    assert (forall ys, NoDup ys ->
             NoDup (flat_map (fun y : Z => map (fun x : Z => (x, y)) xs) ys)) as G; [|apply G; auto].
    induction ys; intros Hy; simpl; [constructor|].
    inversion Hy; subst.
    assert (NoDup (map (fun x : Z => (x, a)) xs)) as N1.
    { apply Injective_map_NoDup; auto. intros u v E; inversion E; auto. }
    revert N1. generalize (IHys H2).
    assert (forall z, In z (map (fun x : Z => (x, a)) xs) ->
             ~ In z (flat_map (fun y : Z => map (fun x : Z => (x, y)) xs) ys)) as D.
    { intros z Hz Hz'. apply in_map_iff in Hz. destruct Hz as (x & <- & _).
      apply in_flat_map in Hz'. destruct Hz' as (y & Hy' & Hz').
      apply in_map_iff in Hz'. destruct Hz' as (x' & E & _). inversion E; subst. auto. }
    revert D. generalize (map (fun x : Z => (x, a)) xs) as l1.
    generalize (flat_map (fun y : Z => map (fun x : Z => (x, y)) xs) ys) as l2.
    intros l2 l1. induction l1; simpl; intros D N2 N1; auto.
    inversion N1; subst. constructor.
    - rewrite in_app_iff. intros [?|?]; auto. eapply D; eauto.
    - apply IHl1; auto.
  Qed.

  Lemma wfmap_new : forall n, 0 < n -> map_size n <= INT_MAX ->
    exists m, tile_map_new (Op:=Op) n = Ok m /\ wfmap n m /\ forall t, look n m t = None.
  Proof.
    intros n Hn Hs. unfold tile_map_new, int_val.
    assert (0 < map_size n) by (unfold map_size; nia).
    replace (in_int (map_size n)) with true by (unfold in_int, INT_MIN in *; lia).
    simpl. eexists. split; [reflexivity|]. split.
    - split; auto. rewrite repeat_length. lia.
    - intros. unfold look. apply nth_repeat.
  Qed.

  Lemma tile_map_new_overflow : forall n, 0 < n -> INT_MAX < map_size n ->
    tile_map_new (Op:=Op) n = UB.
  Proof.
    intros. unfold tile_map_new, int_val.
    replace (in_int (map_size n)) with false by (unfold in_int; lia). reflexivity.
  Qed.

  (** copying visits each old tile once *)
  Lemma copy_ok : forall n m n' m0, wfmap n m -> wfmap n' m0 -> n <= n' ->
    exists m', tile_map_copy_to n m n' m0 = Ok m' /\ wfmap n' m' /\
      forall t, tile_map_contains n' t = true ->
        look n' m' t = if tile_map_contains n t then look n m t else look n' m0 t.
  Proof.
    intros n m n' m0 W W0 Hle. unfold tile_map_copy_to.
    replace (n' >=? n) with true by lia. simpl.
    assert (forall l acc, (forall t, In t l -> tile_map_contains n t = true) -> wfmap n' acc ->
      exists m', ofold (fun acc t => let* s := tile_map_get n m t in tile_map_set n' acc t s) l acc = Ok m'
        /\ wfmap n' m' /\
        forall t, tile_map_contains n' t = true ->
          look n' m' t = if (if in_dec tile_eq_dec t l then true else false) then look n m t else look n' acc t) as G.
    { induction l; intros acc Hin Wa; simpl.
      - exists acc. auto.
      - rewrite get_ok; auto; [|apply Hin; left; auto]. simpl.
        assert (tile_map_contains n' a = true) as Ca.
        { pose proof (Hin a (or_introl eq_refl)) as C. apply contains_spec in C. apply contains_spec. lia. }
        destruct (set_ok n' acc a (look n m a) Wa Ca) as (m1 & -> & W1 & L1). simpl.
        destruct (IHl m1) as (m2 & E2 & W2 & L2); auto.
        { intros; apply Hin; right; auto. }
        exists m2. split; [exact E2|]. split; auto. intros t Ct. rewrite L2; auto.
        rewrite L1; auto.
        destruct (tile_eq_dec a t).
        + subst. rewrite (proj2 (tile_equal_spec t t) eq_refl).
          destruct (in_dec tile_eq_dec t l); auto.
        + destruct (tile_equal a t) eqn:Eat; [apply tile_equal_spec in Eat; congruence|].
          destruct (in_dec tile_eq_dec t l); auto. }
    destruct (G (all_tiles n) m0) as (m' & E & W' & L); auto.
    { intros t Ht. apply in_all_tiles in Ht. auto. }
    exists m'. split; [exact E|]. split; auto. intros t Ct. rewrite L; auto.
    destruct (in_dec tile_eq_dec t (all_tiles n)) as [I|I].
    - apply in_all_tiles in I. rewrite I. auto.
    - destruct (tile_map_contains n t) eqn:C; auto. exfalso. apply I, in_all_tiles; auto.
  Qed.

  (** ** Invariant and abstraction *)

  Record wf (q : queue) : Prop := {
    wf_map : wfmap (q_size q) (q_map q);
    wf_int : map_size (q_size q) <= INT_MAX;
    wf_cap : Z.of_nat (length (q_dirty q)) <= map_size (q_size q);
    wf_in : forall t, In t (q_dirty q) -> tile_map_contains (q_size q) t = true
  }.

  (** pending payloads of a tile *)
  Definition pend (q : queue) (t : tile) : list Op :=
    if tile_map_contains (q_size q) t
    then match look (q_size q) (q_map q) t with Some l => l | None => [] end
    else [].

  Lemma wf_new : wf operation_queue_new.
  Proof.
    constructor; simpl.
    - split; [lia|]. reflexivity.
    - unfold map_size, INT_MAX. lia.
    - unfold map_size. lia.
    - tauto.
  Qed.

  Lemma pend_new : forall t, pend operation_queue_new t = [].
  Proof.
    intros. unfold pend. destruct (tile_map_contains _ _) eqn:E; auto.
    unfold look. change (q_map operation_queue_new) with (repeat (None : slot) 400%nat).
    change (q_size (operation_queue_new (Op:=Op))) with 10.
    rewrite nth_repeat. reflexivity.
  Qed.

  Lemma resize_ok : forall q n', wf q -> q_size q <= n' -> map_size n' <= INT_MAX ->
    exists q', operation_queue_resize q n' = Ok q' /\ wf q' /\ q_size q' = n' /\
      q_dirty q' = q_dirty q /\ forall t, pend q' t = pend q t.
  Proof.
    intros q n' [[Wn Wl] Wi Wc Win] Hle Hs.
    unfold operation_queue_resize.
    destruct (wfmap_new n') as (m0 & -> & W0 & L0); [lia|auto|]. simpl.
    destruct (copy_ok (q_size q) (q_map q) n' m0) as (m' & -> & W' & L'); auto; [split; auto|]. simpl.
    assert (map_size (q_size q) <= map_size n') by (unfold map_size; nia).
    replace (Z.of_nat (length (q_dirty q)) <=? map_size n') with true by lia.
    eexists. split; [reflexivity|]. simpl.
    assert (forall t, tile_map_contains (q_size q) t = true -> tile_map_contains n' t = true) as Mono.
    { intros t C. apply contains_spec in C. apply contains_spec. lia. }
    split; [|split; [auto|split; [auto|]]].
    - constructor; simpl; auto. lia.
    - intros t. unfold pend. simpl.
      destruct (tile_map_contains n' t) eqn:C'.
      + rewrite L'; auto. destruct (tile_map_contains (q_size q) t) eqn:C; auto.
        rewrite L0. auto.
      + destruct (tile_map_contains (q_size q) t) eqn:C; auto.
        apply Mono in C. congruence.
  Qed.

  Lemma resize_ub : forall q n', wf q -> 0 < n' -> INT_MAX < map_size n' ->
    operation_queue_resize q n' = UB.
  Proof.
    intros. unfold operation_queue_resize. rewrite tile_map_new_overflow; auto.
  Qed.

  (** The growth loop: result size is [size * 2^k]; either the tile is reached
      before the [int] overflow or the outcome is UB; fuel never matters. *)
  Lemma grow_ok : forall fuel q t q', wf q -> grow fuel q t = Ok q' ->
    wf q' /\ tile_map_contains (q_size q') t = true /\ q_dirty q' = q_dirty q /\
    q_size q <= q_size q' /\ forall t', pend q' t' = pend q t'.
  Proof.
    induction fuel; intros q t q' W H; simpl in H;
      destruct (tile_map_contains (q_size q) t) eqn:C.
    - inversion H; subst. split; [auto|]. split; [auto|]. split; [auto|]. split; [lia|auto].
    - discriminate.
    - inversion H; subst. split; [auto|]. split; [auto|]. split; [auto|]. split; [lia|auto].
    - apply obind_ok in H. destruct H as (q1 & E1 & E2).
      pose proof (wf_map _ W) as [Wn _].
      destruct (Z_le_gt_dec (map_size (q_size q * 2)) INT_MAX).
      + destruct (resize_ok q (q_size q * 2)) as (q1' & E1' & W1 & S1 & D1 & P1); auto; [lia|].
        rewrite E1' in E1. inversion E1; subst q1'.
        destruct (IHfuel _ _ _ W1 E2) as (W2 & C2 & D2 & S2 & P2).
        split; [auto|]. split; [auto|]. split; [congruence|]. split; [lia|].
        intros. rewrite P2, P1. auto.
      + rewrite resize_ub in E1; auto; try lia. discriminate.
  Qed.

  (** With fuel [k], growth reaches any tile inside [size*2^k] if that does not
      overflow. *)
  Lemma grow_reach : forall k q t, wf q ->
    map_size (q_size q * 2 ^ Z.of_nat k) <= INT_MAX ->
    tile_map_contains (q_size q * 2 ^ Z.of_nat k) t = true ->
    forall fuel, (k <= fuel)%nat -> is_ok (grow fuel q t).
  Proof.
    induction k; intros q t W Hs Hc fuel Hf.
    - replace (q_size q * 2 ^ Z.of_nat 0) with (q_size q) in * by (simpl; lia).
      destruct fuel; simpl; rewrite Hc; eexists; reflexivity.
    - destruct fuel; [lia|]. simpl.
      destruct (tile_map_contains (q_size q) t) eqn:C; [eexists; reflexivity|].
      pose proof (wf_map _ W) as [Wn _].
      replace (Z.of_nat (S k)) with (1 + Z.of_nat k) in * by lia.
      rewrite Z.pow_add_r in * by lia. change (2^1) with 2 in *.
      assert (1 <= 2 ^ Z.of_nat k) by (pose proof (Z.pow_pos_nonneg 2 (Z.of_nat k)); lia).
      destruct (resize_ok q (q_size q * 2)) as (q1' & E1' & W1 & S1 & D1 & P1); auto; [lia| |].
      { eapply Z.le_trans; [|exact Hs]. apply map_size_mono. nia. }
      rewrite E1'. simpl. apply IHk; auto; try lia; rewrite S1.
      + rewrite <- Z.mul_assoc. auto.
      + rewrite <- Z.mul_assoc. auto.
  Qed.

  (** Tiles beyond the largest representable map: undefined behaviour. *)
  Lemma grow_ub : forall fuel q t, wf q ->
    (forall n, 0 < n -> map_size n <= INT_MAX -> tile_map_contains n t = false) ->
    grow fuel q t = UB.
  Proof.
    induction fuel; intros q t W H; simpl;
      rewrite (H (q_size q)) by apply W || apply (wf_map _ W); auto.
    pose proof (wf_map _ W) as [Wn _].
    destruct (Z_le_gt_dec (map_size (q_size q * 2)) INT_MAX).
    - destruct (resize_ok q (q_size q * 2)) as (q1 & E1 & W1 & _); auto; [lia|].
      rewrite E1. simpl. auto.
    - rewrite resize_ub; auto; lia.
  Qed.

  (** The bound on the number of growth steps is never the reason of failure:
      more fuel than 16 changes nothing. *)
  Lemma grow_fuel_mono : forall f q t, wf q -> INT_MAX < map_size (q_size q * 2 ^ Z.of_nat f) ->
    forall f', (f <= f')%nat -> grow f' q t = grow f q t.
  Proof.
    induction f; intros q t W H f' Hf.
    - replace (q_size q * 2 ^ Z.of_nat 0) with (q_size q) in H by (simpl; lia).
      pose proof (wf_int _ W). lia.
    - destruct f'; [lia|]. simpl.
      destruct (tile_map_contains (q_size q) t); auto.
      pose proof (wf_map _ W) as [Wn _].
      replace (Z.of_nat (S f)) with (1 + Z.of_nat f) in * by lia.
      rewrite Z.pow_add_r in * by lia. change (2^1) with 2 in *.
      destruct (Z_le_gt_dec (map_size (q_size q * 2)) INT_MAX).
      + destruct (resize_ok q (q_size q * 2)) as (q1 & E1 & W1 & S1 & _); auto; [lia|].
        rewrite E1. simpl. apply IHf; auto; [|lia]. rewrite S1, <- Z.mul_assoc. auto.
      + rewrite resize_ub; auto; lia.
  Qed.

  Lemma grow_fuel_enough : forall q t f, wf q -> (16 <= f)%nat -> grow f q t = grow 16 q t.
  Proof.
    intros q t f W H. apply grow_fuel_mono; auto.
    pose proof (wf_map _ W) as [Wn _].
    apply Z.lt_le_trans with (map_size (1 * 2 ^ Z.of_nat 16)); [reflexivity|].
    apply map_size_mono. nia.
  Qed.

  (** ** Deduplication *)

  (** [find_dup a j n x] finds the first index in [j, j+n) holding [x]. *)
  Lemma find_dup_spec : forall fuel a j x,
    let r := find_dup a j fuel x in
    (j <= r <= j + fuel)%nat /\
    (forall k, (j <= k < r)%nat -> nth k a (0,0) <> x) /\
    ((r < j + fuel)%nat -> nth r a (0,0) = x).
  Proof.
    induction fuel; intros; simpl in *.
    - subst r. split; [lia|]. split; intros; lia.
    - subst r. destruct (tile_equal (nth j a (0,0)) x) eqn:E.
      + apply tile_equal_spec in E. split; [lia|]. split; intros; [lia|auto].
      + specialize (IHfuel a (S j) x). simpl in IHfuel. destruct IHfuel as (A & B & C).
        split; [lia|]. split.
        * intros k Hk. destruct (Nat.eq_dec k j).
          -- subst. intro X. apply tile_equal_spec in X. congruence.
          -- apply B. lia.
        * intros. apply C. lia.
  Qed.

  (** Keep-first deduplication, the functional reading of the loops. *)
  Fixpoint dedup_acc (acc l : list tile) : list tile :=
    match l with
    | [] => acc
    | x :: l' => if in_dec tile_eq_dec x acc then dedup_acc acc l' else dedup_acc (acc ++ [x]) l'
    end.

  Lemma firstn_nth_in : forall (a : list tile) n x,
    (n <= length a)%nat ->
    (In x (firstn n a) <-> exists k, (k < n)%nat /\ nth k a (0,0) = x).
  Proof.
    intros a n x Hn. split.
    - intros H. apply In_nth with (d := (0,0)) in H. destruct H as (k & Hk & E).
      rewrite firstn_length in Hk. exists k. split; [lia|].
      rewrite <- E. rewrite <- (firstn_skipn n a) at 1. rewrite app_nth1; auto.
      rewrite firstn_length; lia.
    - intros (k & Hk & E). rewrite <- E. rewrite <- (firstn_skipn n a) at 1.
      rewrite app_nth1 by (rewrite firstn_length; lia). apply nth_In. rewrite firstn_length; lia.
  Qed.

  Lemma firstn_upd_snoc : forall (a : list tile) n x, (n < length a)%nat ->
    firstn (S n) (upd a n x) = firstn n a ++ [x].
  Proof.
    induction a; intros n x H; simpl in H; [lia|].
    destruct n; simpl; auto. f_equal. apply IHa. lia.
  Qed.

  Lemma skipn_upd : forall (a : list tile) n i x, (n < i)%nat ->
    skipn i (upd a n x) = skipn i a.
  Proof.
    induction a; intros n i x H; simpl; [destruct n; auto|].
    destruct n, i; simpl; auto; try lia. apply IHa. lia.
  Qed.

  Lemma upd_same_nth : forall (a : list tile) n x, nth n a (0,0) = x -> (n < length a)%nat -> upd a n x = a.
  Proof.
    induction a; intros n x H Hn; simpl in *; [lia|].
    destruct n; subst; auto. f_equal. apply IHa; auto. lia.
  Qed.

  Lemma dedup_loop_spec : forall steps i a nl,
    (nl <= i)%nat -> (i + steps = length a)%nat ->
    let '(a', nl') := dedup_loop steps i a nl in
    firstn nl' a' = dedup_acc (firstn nl a) (skipn i a).
  Proof.
    induction steps; intros i a nl Hle Hlen; simpl.
    - rewrite skipn_all2 by lia. reflexivity.
    - pose proof (find_dup_spec nl a 0 (nth i a (0,0))) as F. simpl in F. destruct F as (F1 & F2 & F3).
      assert (skipn i a = nth i a (0,0) :: skipn (S i) a) as Esk.
      { clear - Hlen. revert i Hlen. induction a; intros; simpl in *; [lia|].
        destruct i; simpl; [reflexivity|]. apply IHa. lia. }
      rewrite Esk. simpl dedup_acc.
      destruct (Nat.eqb_spec (find_dup a 0 nl (nth i a (0,0))) nl) as [E|E].
      + rewrite E in F2.
        destruct (in_dec tile_eq_dec (nth i a (0,0)) (firstn nl a)) as [I|I].
        { exfalso. apply firstn_nth_in in I; [|lia]. destruct I as (k & Hk & Ek).
          apply (F2 k); auto. lia. }
        specialize (IHsteps (S i) (upd a nl (nth i a (0,0))) (S nl)).
        rewrite upd_length in IHsteps.
        specialize (IHsteps ltac:(lia) ltac:(lia)).
        destruct (dedup_loop steps (S i) (upd a nl (nth i a (0,0))) (S nl)).
        rewrite IHsteps. rewrite firstn_upd_snoc by lia. f_equal. apply skipn_upd. lia.
      + destruct (in_dec tile_eq_dec (nth i a (0,0)) (firstn nl a)) as [I|I].
        * specialize (IHsteps (S i) a nl ltac:(lia) ltac:(lia)).
          destruct (dedup_loop steps (S i) a nl). auto.
        * exfalso. apply I. apply firstn_nth_in; [lia|].
          exists (find_dup a 0 nl (nth i a (0,0))). split; [lia|]. apply F3. lia.
  Qed.

  Lemma remove_dup_eq : forall a, remove_duplicate_tiles a = dedup_acc [] a.
  Proof.
    intros a. unfold remove_duplicate_tiles.
    destruct (Nat.ltb_spec (length a) 2).
    - destruct a as [|x [|y a]]; simpl in *; auto; lia.
    - pose proof (dedup_loop_spec (length a - 1) 1 a 1 ltac:(lia) ltac:(lia)) as D.
      destruct (dedup_loop (length a - 1) 1 a 1) as [a' nl']. rewrite D.
      destruct a as [|x a]; simpl in *; [lia|]. auto.
  Qed.

  Lemma dedup_acc_spec : forall l acc, NoDup acc ->
    NoDup (dedup_acc acc l) /\ (forall x, In x (dedup_acc acc l) <-> In x acc \/ In x l) /\
    (length (dedup_acc acc l) <= length acc + length l)%nat.
  Proof.
    induction l; intros acc N; simpl.
    - split; auto. split; [tauto|lia].
    - destruct (in_dec tile_eq_dec a acc) as [I|I].
      + destruct (IHl acc N) as (A & B & C). split; auto. split; [|lia].
        intros x. rewrite B. intuition congruence.
      + assert (NoDup (acc ++ [a])) as N'.
        { apply (Permutation_NoDup (l := a :: acc)); [apply Permutation_cons_append|].
          constructor; auto. }
        destruct (IHl (acc ++ [a]) N') as (A & B & C). rewrite app_length in C. simpl in C.
        split; auto. split; [|lia]. intros x. rewrite B, in_app_iff. simpl. intuition.
  Qed.

  Lemma remove_dup_spec : forall a,
    NoDup (remove_duplicate_tiles a) /\
    (forall x, In x (remove_duplicate_tiles a) <-> In x a) /\
    (length (remove_duplicate_tiles a) <= length a)%nat.
  Proof.
    intros. rewrite remove_dup_eq. destruct (dedup_acc_spec a [] (NoDup_nil _)) as (A & B & C).
    split; auto. split; auto. intros x. rewrite B. simpl. tauto.
  Qed.

  Lemma dedup_acc_nodup : forall l acc, NoDup (acc ++ l) -> dedup_acc acc l = acc ++ l.
  Proof.
    induction l; intros acc N; simpl; [now rewrite app_nil_r|].
    destruct (in_dec tile_eq_dec a acc) as [I|I].
    - exfalso. apply NoDup_remove_2 in N. apply N. rewrite in_app_iff. auto.
    - replace (acc ++ a :: l) with ((acc ++ [a]) ++ l) in N |- * by (rewrite <- app_assoc; auto).
      apply IHl; auto.
  Qed.

  Lemma remove_dup_nodup : forall a, NoDup a -> remove_duplicate_tiles a = a.
  Proof. intros. rewrite remove_dup_eq. rewrite dedup_acc_nodup; auto. Qed.

  (** ** One call *)

  (** A distinct list of tiles inside the map that has as many entries as the
      map has slots contains every tile of the map. *)
  Lemma full_list : forall n l, 0 < n -> NoDup l ->
    (forall t, In t l -> tile_map_contains n t = true) ->
    map_size n <= Z.of_nat (length l) ->
    forall t, tile_map_contains n t = true -> In t l.
  Proof.
    intros n l Hn Nd Hin Hlen t Ht.
    assert (incl (all_tiles n) l) as I.
    { apply NoDup_length_incl; auto.
      - pose proof (all_tiles_length n). lia.
      - intros x Hx. apply in_all_tiles. auto. }
    apply I, in_all_tiles; auto.
  Qed.

  Definition add_dirty (q q' : queue) (t : tile) : Prop :=
    (pend q t <> [] /\ q_dirty q' = q_dirty q) \/
    (pend q t = [] /\
     (q_dirty q' = q_dirty q ++ [t] \/
      (map_size (q_size q') <= Z.of_nat (length (q_dirty q)) /\
       q_dirty q' = remove_duplicate_tiles (q_dirty q) ++ [t]))).

  Lemma add_spec : forall q t o q', wf q -> operation_queue_add q t o = Ok q' ->
    wf q' /\
    (forall t', pend q' t' = if tile_equal t t' then pend q t' ++ [o] else pend q t') /\
    add_dirty q q' t.
  Proof.
    intros q t o q' W H. unfold operation_queue_add in H.
    apply obind_ok in H. destruct H as (q1 & G & H).
    apply grow_ok in G; auto. destruct G as (W1 & C1 & D1 & S1 & P1).
    pose proof (wf_map _ W1) as WM. rewrite get_ok in H; auto. simpl in H.
    assert (pend q1 t = match look (q_size q1) (q_map q1) t with Some l => l | None => [] end) as Pt.
    { unfold pend. rewrite C1. auto. }
    set (s := look (q_size q1) (q_map q1) t) in *.
    apply obind_ok in H. destruct H as (d & Ed & H).
    destruct (set_ok (q_size q1) (q_map q1) t
               (Some (match s with Some l => l | None => [] end ++ [o])) WM C1) as (m & Em & Wm & Lm).
    rewrite Em in H. simpl in H. inversion H; subst q'; clear H. simpl.
    assert (Hd : Z.of_nat (length d) <= map_size (q_size q1) /\
                 (forall t', In t' d -> tile_map_contains (q_size q1) t' = true) /\
                 add_dirty q (mkQ (q_size q1) m d) t).
    { unfold add_dirty. simpl. rewrite <- !P1, Pt.
      destruct (slot_empty s) eqn:Es.
      - assert (match s with Some l => l | None => [] end = []) as E0
          by (destruct s as [[|]|]; simpl in *; auto; discriminate).
        rewrite E0.
        destruct (negb (Z.of_nat (length (q_dirty q1)) <? map_size (q_size q1))) eqn:Ecap.
        + destruct (Z.of_nat (length (remove_duplicate_tiles (q_dirty q1))) <? map_size (q_size q1)) eqn:El;
            simpl in Ed; try discriminate.
          inversion Ed; subst d. destruct (remove_dup_spec (q_dirty q1)) as (A & B & C).
          split; [rewrite app_length; simpl; lia|]. split.
          * intros t' I. apply in_app_iff in I. destruct I as [I|[<-|[]]]; auto.
            apply B in I. apply (wf_in _ W1); auto.
          * right. split; auto. right. rewrite <- D1. split; [lia|auto].
        + replace (Z.of_nat (length (q_dirty q1)) <? map_size (q_size q1)) with true in Ed by lia.
          simpl in Ed. inversion Ed; subst d.
          split; [rewrite app_length; simpl; lia|]. split.
          * intros t' I. apply in_app_iff in I. destruct I as [I|[<-|[]]]; auto.
            apply (wf_in _ W1); auto.
          * right. split; auto. left. congruence.
      - inversion Ed; subst d. split; [apply (wf_cap _ W1)|]. split; [apply (wf_in _ W1)|].
        left. split; [|congruence]. destruct s as [[|]|]; simpl in *; try discriminate. }
    destruct Hd as (Hd1 & Hd2 & Hd3).
    split; [|split; auto].
    - constructor; simpl; auto. apply (wf_int _ W1).
    - intros t'. rewrite <- P1. unfold pend. simpl.
      destruct (tile_map_contains (q_size q1) t') eqn:C'.
      + rewrite Lm; auto. destruct (tile_equal t t') eqn:E; auto.
        apply tile_equal_spec in E. subst t'. fold s. destruct s; auto.
      + destruct (tile_equal t t') eqn:E; auto. apply tile_equal_spec in E. congruence.
  Qed.

  (** When does [add] fail?  Exactly: the growth overflows, or the tile's queue
      is empty and every slot of the (grown) map is already listed. *)
  Lemma add_ok_iff : forall q t o q1, wf q -> grow grow_fuel q t = Ok q1 ->
    (is_ok (operation_queue_add q t o) <->
     ~ (pend q t = [] /\
        forall t', tile_map_contains (q_size q1) t' = true -> In t' (q_dirty q))) /\
    (~ is_ok (operation_queue_add q t o) -> operation_queue_add q t o = Abort).
  Proof.
    intros q t o q1 W G. unfold operation_queue_add. rewrite G. simpl.
    apply grow_ok in G; auto. destruct G as (W1 & C1 & D1 & S1 & P1).
    pose proof (wf_map _ W1) as WM. rewrite get_ok; auto. simpl.
    assert (pend q1 t = match look (q_size q1) (q_map q1) t with Some l => l | None => [] end) as Pt.
    { unfold pend. rewrite C1. auto. }
    rewrite <- (P1 t), Pt.
    set (s := look (q_size q1) (q_map q1) t) in *.
    destruct (set_ok (q_size q1) (q_map q1) t
               (Some (match s with Some l => l | None => [] end ++ [o])) WM C1) as (m & Em & Wm & Lm).
    destruct (slot_empty s) eqn:Es.
    - assert (match s with Some l => l | None => [] end = []) as E0
          by (destruct s as [[|]|]; simpl in *; auto; discriminate).
      rewrite E0.
      set (d := if negb (Z.of_nat (length (q_dirty q1)) <? map_size (q_size q1))
                then remove_duplicate_tiles (q_dirty q1) else q_dirty q1).
      destruct (Z.of_nat (length d) <? map_size (q_size q1)) eqn:El.
      + simpl. rewrite E0 in Em. change ([] ++ [o]) with [o] in Em. rewrite Em. simpl. split.
        * split; [intros _ [_ Hall]|intros _; eexists; reflexivity].
          assert (incl (all_tiles (q_size q1)) d) as I.
          { intros x Hx. apply in_all_tiles in Hx. apply Hall in Hx. rewrite <- D1 in Hx.
            unfold d. destruct (negb _); auto. apply remove_dup_spec; auto. }
          apply NoDup_incl_length in I; [|apply NoDup_all_tiles].
          pose proof (all_tiles_length (q_size q1)). destruct WM. lia.
        * intros N. exfalso. apply N. eexists; reflexivity.
      + simpl. split; auto. split; [intros [? ?]; discriminate|].
        intros N. exfalso. apply N. split; auto. intros t' Ht'.
        unfold d in El. rewrite <- D1.
        destruct (negb (Z.of_nat (length (q_dirty q1)) <? map_size (q_size q1))) eqn:Ecap; [|lia].
        apply remove_dup_spec. destruct (remove_dup_spec (q_dirty q1)) as (A & B & C).
        apply (full_list (q_size q1)); auto; try (destruct WM; lia).
        intros. apply (wf_in _ W1). apply B; auto.
    - simpl. rewrite Em. simpl. split.
      + split; [intros _ [E0 _]|intros _; eexists; reflexivity].
        destruct s as [[|]|]; simpl in *; discriminate.
      + intros N. exfalso. apply N. eexists; reflexivity.
  Qed.

  Lemma pop_spec : forall q t, wf q ->
    exists q', operation_queue_pop q t = Ok (hd_error (pend q t), q') /\ wf q' /\
      q_dirty q' = q_dirty q /\ q_size q' = q_size q /\
      forall t', pend q' t' = if tile_equal t t' then tl (pend q t') else pend q t'.
  Proof.
    intros q t W. unfold operation_queue_pop.
    destruct (tile_map_contains (q_size q) t) eqn:C; simpl.
    - pose proof (wf_map _ W) as WM. rewrite get_ok; auto. simpl.
      assert (pend q t = match look (q_size q) (q_map q) t with Some l => l | None => [] end) as Pt.
      { unfold pend. rewrite C. auto. }
      rewrite Pt. destruct (look (q_size q) (q_map q) t) as [[|o l]|] eqn:L; simpl.
      + destruct (set_ok (q_size q) (q_map q) t None WM C) as (m & Em & Wm & Lm).
        rewrite Em. simpl. eexists. split; [reflexivity|]. simpl. split; [|split; [|split]]; auto.
        * constructor; simpl; auto; apply W.
        * intros t'. unfold pend. simpl. destruct (tile_map_contains (q_size q) t') eqn:C'; [|destruct (tile_equal t t'); auto].
          rewrite Lm; auto. destruct (tile_equal t t') eqn:E; auto.
          apply tile_equal_spec in E. subst. rewrite L. auto.
      + destruct (set_ok (q_size q) (q_map q) t (Some l) WM C) as (m & Em & Wm & Lm).
        rewrite Em. simpl. eexists. split; [reflexivity|]. simpl. split; [|split; [|split]]; auto.
        * constructor; simpl; auto; apply W.
        * intros t'. unfold pend. simpl. destruct (tile_map_contains (q_size q) t') eqn:C'; [|destruct (tile_equal t t'); auto].
          rewrite Lm; auto. destruct (tile_equal t t') eqn:E; auto.
          apply tile_equal_spec in E. subst. rewrite L. auto.
      + eexists. split; [reflexivity|]. split; [|split; [|split]]; auto.
        intros t'. destruct (tile_equal t t') eqn:E; auto.
        apply tile_equal_spec in E. subst. rewrite Pt. auto.
    - assert (pend q t = []) as E0 by (unfold pend; rewrite C; auto).
      rewrite E0. simpl. eexists. split; [reflexivity|]. split; [|split; [|split]]; auto.
      intros t'. destruct (tile_equal t t') eqn:E; auto.
      apply tile_equal_spec in E. subst. rewrite E0. auto.
  Qed.

  Lemma peek_first_spec : forall q t, wf q ->
    operation_queue_peek_first q t = Ok (hd_error (pend q t)).
  Proof.
    intros q t W. unfold operation_queue_peek_first, pend.
    destruct (tile_map_contains (q_size q) t) eqn:C; simpl; auto.
    rewrite get_ok; auto; [|apply W]. simpl.
    destruct (look (q_size q) (q_map q) t) as [[|o l]|]; auto.
  Qed.

  Lemma hd_rev_last : forall (l : list Op) o, hd_error (rev (o :: l)) = Some (last (o :: l) o).
  Proof.
    intros. assert (o :: l = removelast (o :: l) ++ [last (o :: l) o]) as E
      by (apply app_removelast_last; congruence).
    rewrite E at 1. rewrite rev_app_distr. reflexivity.
  Qed.

  Lemma peek_last_spec : forall q t, wf q ->
    operation_queue_peek_last q t = Ok (hd_error (rev (pend q t))).
  Proof.
    intros q t W. unfold operation_queue_peek_last, pend.
    destruct (tile_map_contains (q_size q) t) eqn:C; simpl; auto.
    rewrite get_ok; auto; [|apply W]. simpl.
    destruct (look (q_size q) (q_map q) t) as [[|o l]|]; auto.
    f_equal. rewrite hd_rev_last. reflexivity.
  Qed.

  Lemma dirty_spec : forall q l q', wf q -> operation_queue_get_dirty_tiles q = (l, q') ->
    wf q' /\ q_dirty q' = l /\ q_size q' = q_size q /\ NoDup l /\ (forall t, In t l <-> In t (q_dirty q)) /\
    forall t, pend q' t = pend q t.
  Proof.
    intros q l q' W H. unfold operation_queue_get_dirty_tiles in H. inversion H; subst; clear H.
    destruct (remove_dup_spec (q_dirty q)) as (A & B & C).
    split; [|split; [|split; [|split; [|split]]]]; auto.
    constructor; simpl; try apply W.
    - pose proof (wf_cap _ W). lia.
    - intros t I. apply B in I. apply (wf_in _ W); auto.
  Qed.

  Lemma clear_spec : forall q, wf q ->
    wf (operation_queue_clear_dirty_tiles q) /\
    q_dirty (operation_queue_clear_dirty_tiles q) = [] /\
    forall t, pend (operation_queue_clear_dirty_tiles q) t = pend q t.
  Proof.
    intros q W. split; [|split]; auto.
    constructor; simpl; try apply W; try tauto.
    pose proof (wf_map _ W) as [? ?]. unfold map_size. nia.
  Qed.

  Lemma qstep_wf : forall q c r q', wf q -> qstep q c = Ok (r, q') -> wf q'.
  Proof.
    intros q c r q' W H. destruct c; simpl in H.
    - apply obind_ok in H. destruct H as (q1 & E & H). inversion H; subst.
      eapply add_spec; eauto.
    - destruct (pop_spec q t W) as (q1 & E & W1 & _). rewrite E in H. simpl in H. inversion H; subst; auto.
    - rewrite peek_first_spec in H; auto. simpl in H. inversion H; subst; auto.
    - rewrite peek_last_spec in H; auto. simpl in H. inversion H; subst; auto.
    - inversion H; subst. eapply (dirty_spec q _ _ W). reflexivity.
    - inversion H; subst. apply clear_spec; auto.
  Qed.

  (** Only [add] can fail. *)
  Lemma qstep_total : forall q c, wf q ->
    (forall t o, c <> QAdd t o) -> is_ok (qstep q c).
  Proof.
    intros q c W H. destruct c; simpl.
    - exfalso. eapply H; eauto.
    - destruct (pop_spec q t W) as (q1 & E & _). rewrite E. simpl. eexists; reflexivity.
    - rewrite peek_first_spec; auto. eexists; reflexivity.
    - rewrite peek_last_spec; auto. eexists; reflexivity.
    - eexists; reflexivity.
    - eexists; reflexivity.
  Qed.
End P.

Arguments pend {Op}. Arguments wf {Op}. Arguments look {Op}. Arguments add_dirty {Op}.
