(** Proofs about Fifo.v: the linked list implements a list, and the exact set
    of objects that stay allocated. *)
From Verif Require Import Base Fifo.
From Coq Require Import Permutation.

Definition fresh (h : heap) : Prop := forall p, (brk h <= p)%nat -> mem h p = None.

Fixpoint chain (m : ptr -> option obj) (items payloads : list ptr) : Prop :=
  match items, payloads with
  | [], [] => True
  | i :: is, d :: ds => m i = Some (OItem (hd_error is) d) /\ chain m is ds
  | _, _ => False
  end.

Definition fifo_rep (m : ptr -> option obj) (q : ptr) (items payloads : list ptr) : Prop :=
  NoDup (q :: items) /\ chain m items payloads /\
  exists c, m q = Some (OFifo (hd_error items) (hd_error (rev items)) c).

Lemma chain_ext : forall m m' is l, (forall p, In p is -> m p = m' p) ->
  chain m is l -> chain m' is l.
Proof.
  induction is; destruct l; simpl; auto. intros H [A B]. split.
  - rewrite <- H; auto.
  - apply IHis; auto.
Qed.

Lemma rep_ext : forall m m' q is l, (forall p, In p (q :: is) -> m p = m' p) ->
  fifo_rep m q is l -> fifo_rep m' q is l.
Proof.
  intros m m' q is l H (N & C & c & E). split; [auto|]. split.
  - eapply chain_ext; [|eauto]. intros; apply H; simpl; auto.
  - exists c. rewrite <- H; simpl; auto.
Qed.

Lemma chain_length : forall m is l, chain m is l -> length is = length l.
Proof. induction is; destruct l; simpl; try tauto. intros [_ H]. f_equal; auto. Qed.

Lemma chain_alloc : forall m is l p, chain m is l -> In p is -> m p <> None.
Proof.
  induction is; destruct l; simpl; try tauto. intros x [A B] [->|I].
  - rewrite A. discriminate.
  - eapply IHis; eauto.
Qed.

Lemma rep_alloc : forall m q is l p, fifo_rep m q is l -> In p (q :: is) -> m p <> None.
Proof.
  intros m q is l p (N & C & c & E) [<-|I].
  - rewrite E. discriminate.
  - eapply chain_alloc; eauto.
Qed.

Lemma set_mem_eq : forall m p o, set_mem m p o p = o.
Proof. intros. unfold set_mem. now rewrite Nat.eqb_refl. Qed.
Lemma set_mem_neq : forall m p p' o, p <> p' -> set_mem m p o p' = m p'.
Proof. intros. unfold set_mem. destruct (Nat.eqb_spec p p'); congruence. Qed.

Lemma hd_rev_snoc : forall (l : list ptr) x, hd_error (rev (l ++ [x])) = Some x.
Proof. intros. rewrite rev_app_distr. reflexivity. Qed.

(** appending a node to a chain: relink the last node *)
Lemma chain_snoc : forall m is l lp i d d',
  NoDup (is ++ [lp]) -> ~ In i (is ++ [lp]) ->
  chain m (is ++ [lp]) (l ++ [d']) ->
  m i = Some (OItem None d) ->
  chain (set_mem m lp (Some (OItem (Some i) d'))) ((is ++ [lp]) ++ [i]) ((l ++ [d']) ++ [d]).
Proof.
  induction is; intros l lp i d d' N Ni C E.
  - destruct l; simpl in *.
    + destruct C as [C _]. split; [apply set_mem_eq|]. split; auto.
      rewrite set_mem_neq; auto.
    + destruct C as [_ C]. destruct l; contradiction.
  - destruct l; simpl in *.
    + destruct C as [_ C]. destruct is; contradiction.
    + destruct C as [C1 C2]. inversion N; subst.
      assert (a <> lp) by (intros ->; apply H1; apply in_app_iff; simpl; auto).
      split.
      * rewrite set_mem_neq by auto. rewrite C1. destruct is; auto.
      * apply IHis; auto.
Qed.

Lemma chain_last_load : forall m is l lp,
  chain m (is ++ [lp]) l -> exists l' d, l = l' ++ [d] /\ m lp = Some (OItem None d).
Proof.
  induction is; intros l lp C.
  - destruct l; simpl in C; [contradiction|]. destruct C as [C1 C2]. destruct l; [|contradiction].
    exists [], p. auto.
  - destruct l; simpl in C; [contradiction|]. destruct C as [C1 C2].
    destruct (IHis _ _ C2) as (l' & d & -> & E). exists (p :: l'), d. auto.
Qed.

Lemma push_rep : forall h q is l d, fifo_rep (mem h) q is l -> fresh h ->
  exists h', fifo_push h q d = Ok h' /\ fresh h' /\ brk h' = S (brk h) /\
    fifo_rep (mem h') q (is ++ [brk h]) (l ++ [d]) /\
    (forall p, ~ In p (q :: is ++ [brk h]) -> mem h' p = mem h p).
Proof.
  intros h q is l d R F.
  assert (forall p, In p (q :: is) -> p <> brk h) as Nb.
  { intros p I ->. apply (rep_alloc _ _ _ _ _ R I). apply F. lia. }
  destruct R as (N & C & c & E).
  unfold fifo_push, malloc, load_fifo. cbn [mem brk].
  rewrite set_mem_neq by (apply not_eq_sym, Nb; simpl; auto). rewrite E. cbn [obind].
  inversion N as [|? ? Nq Ni]; subst.
  destruct is as [|i0 is0] using rev_ind; [|clear IHis0].
  - simpl. destruct l; [|contradiction].
    unfold store. cbn [mem]. rewrite set_mem_neq by (apply not_eq_sym, Nb; simpl; auto). rewrite E.
    eexists. split; [reflexivity|]. cbn [mem brk]. split; [|split; [auto|split]].
    + intros p Hp. cbn [mem brk] in *.
      assert (q <> p) by (intros <-; assert (mem h q = None) by (apply F; lia); congruence).
      assert (brk h <> p) by lia.
      rewrite !set_mem_neq by auto. apply F; lia.
    + split; [|split].
      * constructor; [|constructor; [auto|constructor]]. simpl. intros [X|[]]. apply (Nb q); simpl; auto.
      * simpl. split; auto. rewrite set_mem_neq; [apply set_mem_eq|]. apply Nb; simpl; auto.
      * exists c. apply set_mem_eq.
    + intros p Np. simpl in Np. rewrite !set_mem_neq; auto.
  - rewrite hd_rev_snoc in *.
    destruct (chain_last_load _ _ _ _ C) as (l' & d' & -> & El).
    assert (In i0 (q :: is0 ++ [i0])) as Ii0 by (right; apply in_app_iff; simpl; auto).
    unfold load_item. cbn [mem].
    rewrite set_mem_neq by (apply not_eq_sym, Nb; auto). rewrite El. cbn [obind].
    unfold store. cbn [mem].
    rewrite set_mem_neq by (apply not_eq_sym, Nb; auto). rewrite El. cbn [obind mem].
    assert (i0 <> q) as Niq by (intros ->; apply Nq; apply in_app_iff; simpl; auto).
    rewrite set_mem_neq by auto.
    rewrite set_mem_neq by (apply not_eq_sym, Nb; simpl; auto). rewrite E.
    eexists. split; [reflexivity|]. cbn [mem brk].
    assert (~ In (brk h) (is0 ++ [i0])) as Nbi.
    { intros I. apply (Nb (brk h)); simpl; auto. }
    split; [|split; [auto|split]].
    + intros p Hp. cbn [mem brk] in *.
      assert (p <> q) by (intros ->; assert (mem h q = None) by (apply F; lia); congruence).
      assert (p <> i0) by (intros ->; assert (mem h i0 = None) by (apply F; lia); congruence).
      assert (brk h <> p) by lia. rewrite !set_mem_neq by auto. apply F; lia.
    + split; [|split].
      * apply (Permutation_NoDup (l := brk h :: q :: is0 ++ [i0])).
        -- etransitivity; [apply perm_swap|]. apply perm_skip. apply Permutation_cons_append.
        -- constructor; auto. intros [X|X]; [|contradiction]. apply (Nb q); simpl; auto.
      * apply chain_ext with (m := set_mem (set_mem (mem h) (brk h) (Some (OItem None d))) i0
                                     (Some (OItem (Some (brk h)) d'))).
        -- intros p Ip. rewrite (set_mem_neq _ q); auto. intros <-.
           apply in_app_iff in Ip. destruct Ip as [Ip|[<-|[]]]; [auto|]. apply (Nb (brk h)); simpl; auto.
        -- apply chain_snoc; auto; [|apply set_mem_eq].
           apply chain_ext with (m := mem h); auto.
           intros p Ip. rewrite set_mem_neq; auto. intros <-. auto.
      * exists c. rewrite set_mem_eq. rewrite hd_rev_snoc.
        destruct is0; reflexivity.
    + intros p Np. simpl in Np.
      assert (p <> q /\ p <> i0 /\ p <> brk h) as (A1 & A2 & A3).
      { split; [|split]; intros ->; apply Np; rewrite !in_app_iff; simpl; auto. }
      rewrite !set_mem_neq; auto.
Qed.

Lemma pop_rep_nil : forall h q, fifo_rep (mem h) q [] [] -> fifo_pop h q = Ok (None, h).
Proof.
  intros h q (N & C & c & E). unfold fifo_pop, load_fifo. rewrite E. reflexivity.
Qed.

Lemma pop_rep_cons : forall h q i is d l, fifo_rep (mem h) q (i :: is) (d :: l) -> fresh h ->
  exists h', fifo_pop h q = Ok (Some d, h') /\ fresh h' /\ brk h' = brk h /\
    fifo_rep (mem h') q is l /\ mem h' i = None /\
    (forall p, p <> q -> p <> i -> mem h' p = mem h p).
Proof.
  intros h q i is d l (N & (C1 & C2) & c & E) F.
  unfold fifo_pop, load_fifo. rewrite E. cbn [obind hd_error]. unfold load_item. rewrite C1. cbn [obind].
  unfold free. rewrite C1. cbn [obind]. unfold store. cbn [mem].
  inversion N as [|? ? Nq Ni]; subst. inversion Ni as [|? ? Nii Nis]; subst.
  assert (i <> q) by (intros ->; apply Nq; simpl; auto).
  rewrite set_mem_neq by auto. rewrite E. cbn [obind].
  eexists. split; [reflexivity|]. cbn [mem brk]. split; [|split; [auto|split; [|split]]].
  - intros p Hp. cbn [mem brk] in *.
    assert (p <> q) by (intros ->; assert (mem h q = None) by (apply F; lia); congruence).
    assert (p <> i) by (intros ->; assert (mem h i = None) by (apply F; lia); congruence).
    rewrite !set_mem_neq; auto.
  - split; [constructor; auto; intros X; apply Nq; simpl; auto|]. split.
    + apply chain_ext with (m := mem h); auto. intros p Ip.
      rewrite !set_mem_neq; auto; intros <-; auto. apply Nq; simpl; auto.
    + exists (c - 1). rewrite set_mem_eq. f_equal. f_equal.
      destruct is as [|i1 is1]; [reflexivity|].
      simpl hd_error at 1. cbn. 
      assert (forall (a b : list ptr), a <> [] -> hd_error (a ++ b) = hd_error a) as X
        by (intros [|? ?] ?; [congruence|reflexivity]).
      rewrite X; [reflexivity|]. intros Z0. apply (f_equal (@length _)) in Z0.
      rewrite app_length in Z0. simpl in Z0. lia.
  - rewrite set_mem_neq by auto. apply set_mem_eq.
  - intros p A B. rewrite !set_mem_neq; auto.
Qed.

Lemma free_loop_rep : forall fuel h q is l c,
  NoDup (q :: is) -> chain (mem h) is l -> 
  (exists la, mem h q = Some (OFifo (hd_error is) la c)) ->
  (length is <= fuel)%nat ->
  exists h', fifo_free_loop fuel h q = Ok h' /\ brk h' = brk h /\
    mem h' q <> None /\
    (forall p, In p is -> mem h' p = None) /\
    (forall p, ~ In p (q :: is) -> mem h' p = mem h p).
Proof.
  induction fuel; intros h q is l c N C (la & E) Hf.
  - destruct is; [|simpl in Hf; lia]. simpl. unfold load_fifo. rewrite E. cbn [obind hd_error].
    exists h. split; [auto|]. split; [auto|]. split; [congruence|]. split; [intros p []|auto].
  - simpl. unfold load_fifo. rewrite E. cbn [obind].
    destruct is as [|i is]; cbn [hd_error].
    + exists h. split; [auto|]. split; [auto|]. split; [congruence|]. split; [intros p []|auto].
    + destruct l as [|d l]; [contradiction|]. destruct C as (C1 & C2).
      unfold load_item. rewrite C1. cbn [obind]. unfold store. rewrite E. cbn [obind].
      inversion N as [|? ? Nq Ni]; subst. inversion Ni as [|? ? Nii Nis]; subst.
      assert (q <> i) by (intros ->; apply Nq; simpl; auto).
      unfold free. cbn [mem]. rewrite set_mem_neq by auto. rewrite C1. cbn [obind].
      set (h1 := mkHeap _ _).
      destruct (IHfuel h1 q is l c) as (h' & E' & B' & Q' & D' & P').
      * constructor; auto. intros X; apply Nq; simpl; auto.
      * apply chain_ext with (m := mem h); auto. intros p Ip. unfold h1; cbn [mem].
        rewrite !set_mem_neq; auto; intros <-; auto. apply Nq; simpl; auto.
      * exists la. unfold h1; cbn [mem]. rewrite set_mem_neq by auto. apply set_mem_eq.
      * simpl in Hf. lia.
      * exists h'. split; [exact E'|]. split; [rewrite B'; reflexivity|]. split; [auto|]. split.
        -- intros p [<-|Ip]; auto. rewrite P'.
           ++ unfold h1; cbn [mem]. apply set_mem_eq.
           ++ intros [X|X]; auto.
        -- intros p Np. rewrite P' by (simpl in *; tauto). unfold h1; cbn [mem].
           rewrite !set_mem_neq; auto; intros <-; apply Np; simpl; auto.
Qed.

Lemma NoDup_lt_length : forall (l : list nat) b, NoDup l -> (forall p, In p l -> (p < b)%nat) ->
  (length l <= b)%nat.
Proof.
  intros l b N H. rewrite <- (seq_length b 0). apply NoDup_incl_length; auto.
  intros p I. apply in_seq. specialize (H p I). lia.
Qed.

Lemma free_rep : forall h q is l, fifo_rep (mem h) q is l -> fresh h ->
  exists h', fifo_free h q = Ok h' /\ fresh h' /\ brk h' = brk h /\
    (forall p, In p (q :: is) -> mem h' p = None) /\
    (forall p, ~ In p (q :: is) -> mem h' p = mem h p).
Proof.
  intros h q is l R F. pose proof R as (N & C & c & E).
  assert (forall p, In p (q :: is) -> (p < brk h)%nat) as Lt.
  { intros p I. destruct (le_lt_dec (brk h) p) as [L|L]; auto.
    exfalso. apply (rep_alloc _ _ _ _ _ R I). apply F; auto. }
  unfold fifo_free.
  destruct (free_loop_rep (brk h) h q is l c) as (h1 & E1 & B1 & Q1 & D1 & P1); eauto.
  { apply NoDup_lt_length; [inversion N; auto|]. intros; apply Lt; simpl; auto. }
  rewrite E1. cbn [obind]. unfold free. destruct (mem h1 q) eqn:Eq; [|congruence].
  eexists. split; [reflexivity|]. cbn [mem brk].
  assert (forall p, In p (q :: is) -> set_mem (mem h1) q None p = None) as Gone.
  { intros p [<-|I]; [apply set_mem_eq|].
    destruct (Nat.eq_dec q p) as [->|Nq]; [apply set_mem_eq|]. rewrite set_mem_neq; auto. }
  assert (forall p, ~ In p (q :: is) -> set_mem (mem h1) q None p = mem h p) as Same.
  { intros p Np. rewrite set_mem_neq; [|intros <-; apply Np; simpl; auto]. auto. }
  split; [|split; [auto|split; auto]].
  intros p Hp. cbn [mem brk] in *.
  destruct (in_dec Nat.eq_dec p (q :: is)) as [I|I]; [auto|]. rewrite Same; auto. apply F. lia.
Qed.

(** ** All slots of the tile map *)

Record inv (base : ptr -> Prop) (h : heap) (slots : list (option ptr))
           (fp pay : nat -> list ptr) : Prop := {
  i_some : forall k q, nth k slots None = Some q ->
             exists is, fp k = q :: is /\ fifo_rep (mem h) q is (pay k);
  i_none : forall k, nth k slots None = None -> fp k = [] /\ pay k = [];
  i_nodup : forall k, NoDup (fp k ++ pay k);
  i_disj : forall k k' p, In p (fp k ++ pay k) -> In p (fp k' ++ pay k') -> k = k';
  i_alloc : forall p, mem h p <> None <-> base p \/ exists k, In p (fp k ++ pay k);
  i_base : forall p k, base p -> ~ In p (fp k ++ pay k);
  i_fresh : fresh h
}.

Definition fset {A} (f : nat -> A) (k : nat) (v : A) : nat -> A :=
  fun k' => if Nat.eqb k k' then v else f k'.
Lemma fset_eq : forall A (f : nat -> A) k v, fset f k v k = v.
Proof. intros. unfold fset. now rewrite Nat.eqb_refl. Qed.
Lemma fset_neq : forall A (f : nat -> A) k k' v, k <> k' -> fset f k v k' = f k'.
Proof. intros. unfold fset. destruct (Nat.eqb_spec k k'); congruence. Qed.

Lemma inv_lt : forall base h slots fp pay p k, inv base h slots fp pay ->
  In p (fp k ++ pay k) -> (p < brk h)%nat.
Proof.
  intros. destruct (le_lt_dec (brk h) p) as [L|L]; auto. exfalso.
  apply (proj2 (i_alloc _ _ _ _ _ H p)); [eauto|]. apply (i_fresh _ _ _ _ _ H); auto.
Qed.
Lemma inv_base_lt : forall base h slots fp pay p, inv base h slots fp pay ->
  base p -> (p < brk h)%nat.
Proof.
  intros. destruct (le_lt_dec (brk h) p) as [L|L]; auto. exfalso.
  apply (proj2 (i_alloc _ _ _ _ _ H p)); [eauto|]. apply (i_fresh _ _ _ _ _ H); auto.
Qed.

(** allocate the payload: it joins the footprint as an extra payload that is
    not yet linked; we phrase the whole [mem_add] at once. *)
Lemma add_inv : forall base h slots fp pay k, inv base h slots fp pay ->
  (k < length slots)%nat ->
  exists op h' slots' fp', mem_add h slots k = Ok (op, h', slots') /\
    length slots' = length slots /\
    op = brk h /\ (brk h < brk h')%nat /\ ~ base op /\
    inv base h' slots' fp' (fset pay k (pay k ++ [op])).
Proof.
  intros base h slots fp pay k I Hk. unfold mem_add.
  cbn [malloc]. set (op := brk h). set (h1 := mkHeap (set_mem (mem h) op (Some OOp)) (S op)).
  change (malloc h OOp) with (op, h1). cbv iota.
  assert (F1 : fresh h1).
  { intros p Hp. unfold h1 in *. cbn [mem brk] in *. rewrite set_mem_neq by lia. apply (i_fresh _ _ _ _ _ I). unfold op in Hp. lia. }
  assert (Op_pay : forall k', ~ In op (fp k' ++ pay k')).
  { intros k' X. apply (inv_lt _ _ _ _ _ _ _ I) in X. unfold op in X. lia. }
  assert (Op_base : ~ base op).
  { intros X. apply (inv_base_lt _ _ _ _ _ _ I) in X. unfold op in X. lia. }
  assert (SameRep : forall k' q is, fp k' = q :: is -> fifo_rep (mem h) q is (pay k') ->
                     fifo_rep (mem h1) q is (pay k')).
  { intros k' q is E R. eapply rep_ext; [|exact R]. intros p Ip. unfold h1; cbn [mem].
    rewrite set_mem_neq; auto. intros <-. apply (Op_pay k'). rewrite E. apply in_app_iff; auto. }
  destruct (nth k slots None) as [q|] eqn:Ek.
  - (* existing fifo *)
    destruct (i_some _ _ _ _ _ I _ _ Ek) as (is & Efp & R).
    pose proof (SameRep _ _ _ Efp R) as R1.
    assert (exists r, fifo_peek_first h1 q = Ok r) as (r & Er).
    { destruct R1 as (_ & C1 & c & E). unfold fifo_peek_first, load_fifo. rewrite E. cbn [obind].
      destruct is as [|i is]; cbn [hd_error]; [eauto|]. destruct (pay k); [contradiction|].
      destruct C1 as (C1 & _). unfold load_item. rewrite C1. cbn [obind]. eauto. }
    rewrite Er. cbn [obind].
    destruct (push_rep h1 q is (pay k) op R1 F1) as (h2 & E2 & F2 & B2 & R2 & P2).
    rewrite E2. cbn [obind].
    set (it := brk h1) in *.
    assert (It_fresh : forall k', ~ In it (fp k' ++ pay k')).
    { intros k' X. apply (inv_lt _ _ _ _ _ _ _ I) in X. unfold it, h1, op in X. cbn [brk] in X. lia. }
    assert (It_base : ~ base it).
    { intros X. apply (inv_base_lt _ _ _ _ _ _ I) in X. unfold it, h1, op in X. cbn [brk] in X. lia. }
    assert (it <> op) by (unfold it, h1, op; cbn [brk]; lia).
    exists op, h2, slots, (fset fp k (q :: is ++ [it])).
    split; [reflexivity|]. split; [auto|]. split; [reflexivity|].
    split; [rewrite B2; unfold it, h1, op; cbn [brk]; lia|]. split; [auto|].
    assert (Inew : forall p k', In p (fset fp k (q :: is ++ [it]) k' ++ fset pay k (pay k ++ [op]) k') <->
               In p (fp k' ++ pay k') \/ (k' = k /\ (p = it \/ p = op))).
    { intros p k'. destruct (Nat.eq_dec k k') as [<-|Nk].
      - rewrite !fset_eq, Efp. simpl. rewrite !in_app_iff. simpl. intuition congruence.
      - rewrite !fset_neq by auto. intuition congruence. }
    constructor.
    + intros k' q' E'. destruct (Nat.eq_dec k k') as [<-|Nk].
      * rewrite !fset_eq. assert (q' = q) as -> by congruence. exists (is ++ [it]). auto.
      * rewrite !fset_neq by auto. destruct (i_some _ _ _ _ _ I _ _ E') as (is' & Efp' & R').
        exists is'. split; auto. eapply rep_ext; [|apply (SameRep k'); eauto].
        intros p Ip. rewrite P2; auto. intros X.
        assert (In p (fp k' ++ pay k')) as X1 by (rewrite Efp'; apply in_app_iff; auto).
        assert (In p (q :: is) \/ p = it) as [X2| ->].
        { simpl in X. rewrite in_app_iff in X. simpl in *. intuition. }
        -- apply Nk. apply (i_disj _ _ _ _ _ I) with p; auto. rewrite Efp. apply in_app_iff; auto.
        -- apply (It_fresh k'); auto.
    + intros k' E'. destruct (Nat.eq_dec k k') as [<-|Nk]; [congruence|].
      rewrite !fset_neq by auto. apply (i_none _ _ _ _ _ I); auto.
    + intros k'. destruct (Nat.eq_dec k k') as [<-|Nk].
      * rewrite !fset_eq. pose proof (i_nodup _ _ _ _ _ I k) as ND. rewrite Efp in ND.
        apply (Permutation_NoDup (l := it :: op :: (q :: is) ++ pay k)).
        { simpl. rewrite <- !app_assoc. simpl.
          etransitivity; [apply perm_skip, perm_swap|]. etransitivity; [apply perm_swap|]. apply perm_skip.
          etransitivity; [apply perm_skip, Permutation_cons_append|].
          rewrite <- app_assoc. apply (Permutation_middle is (pay k ++ [op]) it). }
        constructor; [|constructor; auto].
        -- intros [X|X]; [congruence|]. apply (It_fresh k). rewrite Efp. auto.
        -- rewrite <- Efp. auto.
      * rewrite !fset_neq by auto. apply (i_nodup _ _ _ _ _ I).
    + intros k1 k2 p X1 X2. apply Inew in X1, X2.
      destruct X1 as [X1|(-> & X1)], X2 as [X2|(-> & X2)]; auto.
      * apply (i_disj _ _ _ _ _ I) with p; auto.
      * exfalso. destruct X2 as [-> | ->]; [apply (It_fresh k1); auto | apply (Op_pay k1); auto].
      * exfalso. destruct X1 as [-> | ->]; [apply (It_fresh k2); auto | apply (Op_pay k2); auto].
    + intros p. 
      assert (mem h2 p <> None <-> mem h p <> None \/ p = it \/ p = op) as M.
      { destruct (in_dec Nat.eq_dec p (q :: is ++ [it])) as [X|X].
        - assert (mem h2 p <> None) by (eapply rep_alloc; eauto).
          split; [intros _|auto]. simpl in X. rewrite in_app_iff in X.
          destruct X as [X|[X|[X|[]]]]; auto; left; apply (i_alloc _ _ _ _ _ I); right; exists k; rewrite Efp;
            apply in_app_iff; simpl; auto.
        - rewrite P2 by auto. unfold h1; cbn [mem]. unfold set_mem.
          destruct (Nat.eqb_spec op p).
          + subst. split; auto. intros _. discriminate.
          + split; auto. intros [?|[->|?]]; auto; try congruence; exfalso; apply X; simpl; rewrite in_app_iff; simpl; auto. }
      rewrite M, (i_alloc _ _ _ _ _ I). split.
      * intros [[?|(k' & X)]|X]; auto; right.
        -- exists k'. apply Inew; auto.
        -- exists k. apply Inew; auto.
      * intros [?|(k' & X)]; auto. apply Inew in X. destruct X as [X|(_ & X)]; auto.
        left. right. eauto.
    + intros p k' Bp X. apply Inew in X. destruct X as [X|(_ & [-> | ->])]; auto.
      eapply (i_base _ _ _ _ _ I); eauto.
    + auto.
  - (* new fifo *)
    destruct (i_none _ _ _ _ _ I _ Ek) as (Efp & Epay).
    unfold fifo_new. unfold malloc.
    set (q := brk h1). set (h2 := mkHeap (set_mem (mem h1) q (Some (OFifo None None 0))) (S q)).
    cbv iota.
    assert (R2 : fifo_rep (mem h2) q [] []).
    { split; [constructor; [intros []|constructor]|]. split; [exact Logic.I|]. exists 0. apply set_mem_eq. }
    assert (F2 : fresh h2).
    { intros p Hp. unfold h2 in *. cbn [mem brk] in *. rewrite set_mem_neq by lia. apply F1. unfold q in Hp. lia. }
    assert (fifo_peek_first h2 q = Ok None) as ->.
    { destruct R2 as (_ & _ & c & E). unfold fifo_peek_first, load_fifo. rewrite E. reflexivity. }
    cbn [obind].
    destruct (push_rep h2 q [] [] op R2 F2) as (h3 & E3 & F3 & B3 & R3 & P3).
    rewrite E3. cbn [obind]. set (it := brk h2) in *. simpl app in R3, P3.
    assert (q = S op) as Eq by reflexivity. assert (it = S (S op)) as Eit by reflexivity.
    assert (Q_fresh : forall k', ~ In q (fp k' ++ pay k')).
    { intros k' X. apply (inv_lt _ _ _ _ _ _ _ I) in X. fold op in X. lia. }
    assert (It_fresh : forall k', ~ In it (fp k' ++ pay k')).
    { intros k' X. apply (inv_lt _ _ _ _ _ _ _ I) in X. fold op in X. lia. }
    assert (Q_base : ~ base q).
    { intros X. apply (inv_base_lt _ _ _ _ _ _ I) in X. fold op in X. lia. }
    assert (It_base : ~ base it).
    { intros X. apply (inv_base_lt _ _ _ _ _ _ I) in X. fold op in X. lia. }
    exists op, h3, (upd slots k (Some q)), (fset fp k [q; it]).
    split; [reflexivity|]. split; [apply upd_length|].
    split; [reflexivity|]. split; [rewrite B3; fold it; fold op; lia|]. split; [auto|].
    rewrite Epay in *. simpl app.
    assert (Inew : forall p k', In p (fset fp k [q; it] k' ++ fset pay k [op] k') <->
               In p (fp k' ++ pay k') \/ (k' = k /\ (p = q \/ p = it \/ p = op))).
    { intros p k'. destruct (Nat.eq_dec k k') as [<-|Nk].
      - rewrite !fset_eq, Efp, Epay. simpl. intuition.
      - rewrite !fset_neq by auto. intuition congruence. }
    constructor.
    + intros k' q' E'. destruct (Nat.eq_dec k k') as [<-|Nk].
      * rewrite !fset_eq. rewrite nth_upd_eq in E' by auto. inversion E'; subst q'. exists [it]. auto.
      * rewrite !fset_neq by auto. rewrite nth_upd_neq in E' by auto.
        destruct (i_some _ _ _ _ _ I _ _ E') as (is' & Efp' & R').
        exists is'. split; auto. eapply rep_ext; [|apply (SameRep k'); eauto].
        intros p Ip.
        assert (In p (fp k' ++ pay k')) as X1 by (rewrite Efp'; apply in_app_iff; auto).
        assert (p <> q) by (intros ->; apply (Q_fresh k'); auto).
        assert (p <> it) by (intros ->; apply (It_fresh k'); auto).
        rewrite P3 by (simpl; intuition). unfold h2; cbn [mem]. rewrite set_mem_neq; auto.
    + intros k' E'. destruct (Nat.eq_dec k k') as [<-|Nk]; [rewrite nth_upd_eq in E' by auto; discriminate|].
      rewrite !fset_neq by auto. rewrite nth_upd_neq in E' by auto. apply (i_none _ _ _ _ _ I); auto.
    + intros k'. destruct (Nat.eq_dec k k') as [<-|Nk].
      * rewrite !fset_eq. simpl. constructor; [|constructor; [|constructor; [auto|constructor]]]; simpl; lia.
      * rewrite !fset_neq by auto. apply (i_nodup _ _ _ _ _ I).
    + intros k1 k2 p X1 X2. apply Inew in X1, X2.
      destruct X1 as [X1|(-> & X1)], X2 as [X2|(-> & X2)]; auto.
      * apply (i_disj _ _ _ _ _ I) with p; auto.
      * exfalso. destruct X2 as [-> | [-> | ->]]; [apply (Q_fresh k1)|apply (It_fresh k1)|apply (Op_pay k1)]; auto.
      * exfalso. destruct X1 as [-> | [-> | ->]]; [apply (Q_fresh k2)|apply (It_fresh k2)|apply (Op_pay k2)]; auto.
    + intros p.
      assert (mem h3 p <> None <-> mem h p <> None \/ p = q \/ p = it \/ p = op) as M.
      { destruct (in_dec Nat.eq_dec p [q; it]) as [X|X].
        - assert (mem h3 p <> None) by (eapply rep_alloc; [exact R3|exact X]).
          split; [intros _|auto]. simpl in X. intuition.
        - rewrite P3 by (simpl in *; auto). unfold h2, h1; cbn [mem].
          rewrite set_mem_neq by (intros <-; apply X; simpl; auto). unfold set_mem.
          destruct (Nat.eqb_spec op p).
          + subst. split; auto. intros _. discriminate.
          + split; auto. intros [?|[->|[->|?]]]; auto; try congruence; exfalso; apply X; simpl; auto. }
      rewrite M, (i_alloc _ _ _ _ _ I). split.
      * intros [[?|(k' & X)]|X]; auto; right.
        -- exists k'. apply Inew; auto.
        -- exists k. apply Inew; auto.
      * intros [?|(k' & X)]; auto. apply Inew in X. destruct X as [X|(_ & X)]; auto.
        left. right. eauto.
    + intros p k' Bp X. apply Inew in X. destruct X as [X|(_ & [-> | [-> | ->]])]; auto.
      eapply (i_base _ _ _ _ _ I); eauto.
    + auto.
Qed.

Lemma process_inv : forall base h slots fp pay k, inv base h slots fp pay ->
  (k < length slots)%nat ->
  exists o h' slots' fp', mem_process_one h slots k = Ok (o, h', slots') /\
    length slots' = length slots /\ o = hd_error (pay k) /\ brk h' = brk h /\
    inv base h' slots' fp' (fset pay k (tl (pay k))).
Proof.
  intros base h slots fp pay k I Hk. unfold mem_process_one, mem_pop.
  destruct (nth k slots None) as [q|] eqn:Ek.
  - destruct (i_some _ _ _ _ _ I _ _ Ek) as (is & Efp & R).
    destruct is as [|i is].
    + (* empty fifo: it is freed *)
      assert (pay k = []) as Ep.
      { destruct R as (_ & C & _). destruct (pay k); [auto|contradiction]. }
      rewrite Ep in R. rewrite pop_rep_nil by auto. cbn [obind].
      destruct (free_rep h q [] [] R (i_fresh _ _ _ _ _ I)) as (h' & E' & F' & B' & D' & P').
      rewrite E'. cbn [obind].
      exists None, h', (upd slots k None), (fset fp k []).
      split; [reflexivity|]. split; [apply upd_length|]. rewrite Ep. split; [reflexivity|]. split; [auto|]. simpl tl.
      assert (Inew : forall p k', In p (fset fp k [] k' ++ fset pay k [] k') <->
               In p (fp k' ++ pay k') /\ k' <> k).
      { intros p k'. destruct (Nat.eq_dec k k') as [<-|Nk].
        - rewrite !fset_eq. simpl. intuition.
        - rewrite !fset_neq by auto. intuition congruence. }
      constructor.
      * intros k' q' E2. destruct (Nat.eq_dec k k') as [<-|Nk]; [rewrite nth_upd_eq in E2 by auto; discriminate|].
        rewrite nth_upd_neq in E2 by auto. rewrite !fset_neq by auto.
        destruct (i_some _ _ _ _ _ I _ _ E2) as (is' & Efp' & R'). exists is'. split; auto.
        eapply rep_ext; [|exact R']. intros p Ip. rewrite P'; auto. intros X.
        apply Nk. apply (i_disj _ _ _ _ _ I) with p.
        -- rewrite Efp. apply in_app_iff; auto.
        -- rewrite Efp'. apply in_app_iff; auto.
      * intros k' E2. destruct (Nat.eq_dec k k') as [<-|Nk]; [rewrite !fset_eq; auto|].
        rewrite nth_upd_neq in E2 by auto. rewrite !fset_neq by auto. apply (i_none _ _ _ _ _ I); auto.
      * intros k'. destruct (Nat.eq_dec k k') as [<-|Nk]; [rewrite !fset_eq; constructor|].
        rewrite !fset_neq by auto. apply (i_nodup _ _ _ _ _ I).
      * intros k1 k2 p X1 X2. apply Inew in X1, X2. apply (i_disj _ _ _ _ _ I) with p; tauto.
      * intros p. destruct (in_dec Nat.eq_dec p [q]) as [X|X].
        -- rewrite D' by auto. split; [congruence|]. intros [Bp|(k' & Xk)]; exfalso.
           ++ apply (i_base _ _ _ _ _ I p k Bp). rewrite Efp. apply in_app_iff; auto.
           ++ apply Inew in Xk. destruct Xk as [Xk Nk]. apply Nk.
              apply (i_disj _ _ _ _ _ I) with p; auto. rewrite Efp. apply in_app_iff; auto.
        -- rewrite P' by auto. rewrite (i_alloc _ _ _ _ _ I). split; intros [Bp|(k' & Xk)]; auto; right; exists k'.
           ++ apply Inew. split; auto. intros ->. rewrite Efp, Ep in Xk. simpl in Xk, X. tauto.
           ++ apply Inew in Xk. tauto.
      * intros p k' Bp X. apply Inew in X. eapply (i_base _ _ _ _ _ I); [eauto|apply X].
      * auto.
    + (* an operation is delivered and freed *)
      destruct (pay k) as [|d ds] eqn:Ep; [destruct R as (_ & C & _); contradiction|].
      destruct (pop_rep_cons h q i is d ds R (i_fresh _ _ _ _ _ I)) as (h1 & E1 & F1 & B1 & R1 & G1 & P1).
      rewrite E1. cbn [obind].
      pose proof (i_nodup _ _ _ _ _ I k) as ND. rewrite Efp, Ep in ND.
      assert (Dn : ~ In d (q :: i :: is) /\ ~ In d ds).
      { split.
        - intros X. apply NoDup_remove_2 in ND. apply ND. apply in_app_iff; auto.
        - intros X. apply NoDup_remove_2 in ND. apply ND. apply in_app_iff; auto. }
      destruct Dn as [Dn1 Dn2].
      assert (mem h1 d <> None) as Ad.
      { rewrite P1 by (intros ->; apply Dn1; simpl; auto).
        apply (i_alloc _ _ _ _ _ I). right. exists k. rewrite Ep. apply in_app_iff; simpl; auto. }
      unfold free. destruct (mem h1 d) eqn:Ed; [|congruence]. cbn [obind].
      set (h2 := mkHeap (set_mem (mem h1) d None) (brk h1)).
      exists (Some d), h2, slots, (fset fp k (q :: is)).
      split; [reflexivity|]. split; [auto|]. split; [reflexivity|]. split; [auto|]. simpl tl.
      assert (Inew : forall p k', In p (fset fp k (q :: is) k' ++ fset pay k ds k') <->
               In p (fp k' ++ pay k') /\ p <> i /\ p <> d).
      { intros p k'. destruct (Nat.eq_dec k k') as [<-|Nk].
        - rewrite !fset_eq, Efp, Ep. simpl. rewrite !in_app_iff. simpl.
          assert (q <> i /\ q <> d /\ ~ In i is /\ ~ In i ds) as (Z1 & Z2 & Z3 & Z4).
          { inversion ND as [|? ? A1 A2]; subst. inversion A2 as [|? ? A3 A4]; subst.
            split; [intros ->; apply A1; simpl; auto|].
            split; [intros ->; apply Dn1; simpl; auto|].
            split; intros X; apply A3; apply in_app_iff; simpl; auto. }
          assert (~ In d is) by (intros X; apply Dn1; simpl; auto).
          intuition; subst; tauto.
        - rewrite !fset_neq by auto. split; [|tauto]. intros X. split; auto.
          split; intros ->; apply Nk; [apply (i_disj _ _ _ _ _ I) with i | apply (i_disj _ _ _ _ _ I) with d]; auto;
            rewrite Efp, Ep; apply in_app_iff; simpl; auto. }
      constructor.
      * intros k' q' E2. destruct (Nat.eq_dec k k') as [<-|Nk].
        -- rewrite !fset_eq. assert (q' = q) as -> by congruence. exists is. split; auto.
           eapply rep_ext; [|exact R1]. intros p Ip. unfold h2; cbn [mem]. rewrite set_mem_neq; auto.
           intros <-. apply Dn1. simpl in *. tauto.
        -- rewrite !fset_neq by auto. destruct (i_some _ _ _ _ _ I _ _ E2) as (is' & Efp' & R').
           exists is'. split; auto. eapply rep_ext; [|exact R'].
           intros p Ip. assert (In p (fp k' ++ pay k')) as X1 by (rewrite Efp'; apply in_app_iff; auto).
           assert (forall x, In x (fp k ++ pay k) -> p <> x) as Dis.
           { intros x Xx ->. apply Nk. apply (i_disj _ _ _ _ _ I) with x; auto. }
           rewrite Efp, Ep in Dis.
           unfold h2; cbn [mem]. rewrite set_mem_neq by (apply not_eq_sym, Dis, in_app_iff; simpl; auto).
           rewrite P1; auto; apply Dis, in_app_iff; simpl; auto.
      * intros k' E2. destruct (Nat.eq_dec k k') as [<-|Nk]; [congruence|].
        rewrite !fset_neq by auto. apply (i_none _ _ _ _ _ I); auto.
      * intros k'. destruct (Nat.eq_dec k k') as [<-|Nk].
        -- rewrite !fset_eq. change ((q :: i :: is) ++ d :: ds) with (q :: i :: (is ++ d :: ds)) in ND.
           inversion ND as [|? ? A1 A2]; subst. inversion A2 as [|? ? A3 A4]; subst.
           apply NoDup_remove_1 in A4. simpl. constructor; auto.
           intros X. apply A1. right. rewrite !in_app_iff in *. simpl. tauto.
        -- rewrite !fset_neq by auto. apply (i_nodup _ _ _ _ _ I).
      * intros k1 k2 p X1 X2. apply Inew in X1, X2. apply (i_disj _ _ _ _ _ I) with p; tauto.
      * intros p. unfold h2; cbn [mem].
        assert (set_mem (mem h1) d None p <> None <-> mem h p <> None /\ p <> i /\ p <> d) as M.
        { destruct (Nat.eq_dec d p) as [->|Nd]; [rewrite set_mem_eq; intuition|]. rewrite set_mem_neq by auto.
          destruct (Nat.eq_dec p i) as [->|Npi]; [rewrite G1; intuition|].
          destruct (Nat.eq_dec p q) as [->|Nq].
          - assert (mem h1 q <> None) by (eapply rep_alloc; [exact R1|simpl; auto]).
            assert (mem h q <> None) by (eapply rep_alloc; [exact R|simpl; auto]). intuition.
          - rewrite P1 by auto. intuition. }
        rewrite M, (i_alloc _ _ _ _ _ I). split.
        -- intros ([Bp|(k' & X)] & N1 & N2); auto. right. exists k'. apply Inew. auto.
        -- intros [Bp|(k' & X)].
           ++ split; auto. split; intros ->; eapply (i_base _ _ _ _ _ I _ k Bp); rewrite Efp, Ep; apply in_app_iff; simpl; auto.
           ++ apply Inew in X. split; [right; exists k'; tauto|tauto].
      * intros p k' Bp X. apply Inew in X. eapply (i_base _ _ _ _ _ I); [eauto|apply X].
      * intros p Hp. unfold h2 in *; cbn [mem brk] in *. unfold set_mem. destruct (Nat.eqb d p); auto.
  - destruct (i_none _ _ _ _ _ I _ Ek) as (Efp & Ep). cbn [obind].
    exists None, h, slots, fp. split; [reflexivity|]. split; [auto|]. rewrite Ep. split; [auto|]. split; [auto|]. simpl tl.
    assert (forall k', fset pay k [] k' = pay k') as Eq.
    { intros k'. destruct (Nat.eq_dec k k') as [<-|Nk]; [rewrite fset_eq; auto|rewrite fset_neq; auto]. }
    destruct I. constructor; intros; rewrite ?Eq in *; eauto.
    + rewrite i_alloc0. split; intros [?|(k' & X)]; auto; right; exists k'; rewrite ?Eq in *; auto.
Qed.

Lemma skipn_nth : forall A (l : list A) d j, (j < length l)%nat ->
  skipn j l = nth j l d :: skipn (S j) l.
Proof.
  induction l; intros d j L; cbn [length] in L; [lia|].
  destruct j; [reflexivity|]. cbn [skipn nth]. rewrite (IHl d) by lia. reflexivity.
Qed.

(** freeing all fifos leaves exactly the base objects and the payloads *)
Lemma free_all_inv : forall base h slots fp pay, inv base h slots fp pay ->
  exists h', mem_free_all h slots = Ok h' /\
    forall p, mem h' p <> None <-> base p \/ exists k, In p (pay k).
Proof.
  intros base h slots fp pay I.
  (* generalise over a suffix of the slots *)
  assert (forall n h0, (n <= length slots)%nat ->
    fresh h0 ->
    (forall k, (length slots - n <= k)%nat -> forall q is, fp k = q :: is -> nth k slots None = Some q ->
        fifo_rep (mem h0) q is (pay k)) ->
    exists h', mem_free_all h0 (skipn (length slots - n) slots) = Ok h' /\
      (forall p, (exists k, (length slots - n <= k)%nat /\ In p (fp k)) -> mem h' p = None) /\
      (forall p, ~ (exists k, (length slots - n <= k)%nat /\ In p (fp k)) -> mem h' p = mem h0 p)) as G.
  { induction n; intros h0 Hn F0 R0.
    - rewrite Nat.sub_0_r in *. rewrite skipn_all. exists h0. split; [reflexivity|]. split; [|auto].
      intros p (k & Hk & X). destruct (i_none _ _ _ _ _ I k) as (E & _); [apply nth_overflow; auto|].
      rewrite E in X. contradiction.
    - set (j := (length slots - S n)%nat) in *.
      assert (length slots - n = S j)%nat as Ej by (unfold j; lia). rewrite Ej in IHn.
      assert (skipn j slots = nth j slots None :: skipn (S j) slots) as Esk.
      { assert (j < length slots)%nat as L by (unfold j; lia). apply skipn_nth; auto. }
      rewrite Esk. unfold mem_free_all in *. cbn [ofold].
      destruct (nth j slots None) as [q|] eqn:Enj.
      + destruct (i_some _ _ _ _ _ I _ _ Enj) as (is & Efp & _).
        assert (fifo_rep (mem h0) q is (pay j)) as Rj by (apply R0; auto).
        destruct (free_rep h0 q is (pay j) Rj F0) as (h1 & E1 & F1 & B1 & D1 & P1).
        rewrite E1. cbn [obind].
        destruct (IHn h1) as (h' & E' & D' & P'); [lia|auto| |].
        * intros k Hk q' is' Efp' Enk. eapply rep_ext; [|apply (R0 k); eauto; lia].
          intros p Ip. rewrite P1; auto. intros X.
          assert (k = j); [|lia]. apply (i_disj _ _ _ _ _ I) with p; [rewrite Efp'|rewrite Efp]; apply in_app_iff; auto.
        * exists h'. split; [exact E'|]. split.
          -- intros p (k & Hk & X). destruct (Nat.eq_dec k j) as [->|Nkj].
             ++ destruct (Exists_dec (fun _ => False) [0] ltac:(intros; right; tauto)) as [Z|_];
                  [apply Exists_exists in Z; destruct Z as (? & _ & []) |].
                assert (~ exists k, (S j <= k)%nat /\ In p (fp k)) as Nx.
                { intros (k & Hk2 & Xk). assert (j = k); [|lia].
                  apply (i_disj _ _ _ _ _ I) with p; apply in_app_iff; auto. }
                rewrite P' by auto. rewrite D1; auto. rewrite <- Efp. auto.
             ++ apply D'. exists k. split; [lia|auto].
          -- intros p Np. rewrite P'.
             ++ apply P1. intros X. apply Np. exists j. rewrite Efp. auto.
             ++ intros (k & Hk & X). apply Np. exists k. split; [lia|auto].
      + cbn [obind]. destruct (IHn h0) as (h' & E' & D' & P'); [lia|auto| |].
        * intros k Hk. apply R0. lia.
        * assert (fp j = []) as Efp by (apply (i_none _ _ _ _ _ I); auto).
          exists h'. split; [exact E'|]. split.
          -- intros p (k & Hk & X). destruct (Nat.eq_dec k j) as [->|Nkj]; [rewrite Efp in X; contradiction|].
             apply D'. exists k. split; [lia|auto].
          -- intros p Np. apply P'. intros (k & Hk & X). apply Np. exists k. split; [lia|auto]. }
  destruct (G (length slots) h) as (h' & E' & D' & P'); auto.
  - apply (i_fresh _ _ _ _ _ I).
  - intros k Hk q is Efp En. destruct (i_some _ _ _ _ _ I _ _ En) as (is' & Efp' & R'). 
    assert (is' = is) by congruence. subst. auto.
  - rewrite Nat.sub_diag in *. simpl skipn in E'. exists h'. split; [auto|].
    intros p. split.
    + intros M. 
      assert (~ exists k, (0 <= k)%nat /\ In p (fp k)) as Np by (intros X; apply M, D', X).
      rewrite P' in M by auto. apply (i_alloc _ _ _ _ _ I) in M. destruct M as [?|(k & X)]; auto.
      right. exists k. apply in_app_iff in X. destruct X as [X|X]; auto. exfalso. apply Np. exists k. split; [lia|auto].
    + intros M.
      assert (mem h p <> None) as Mh.
      { apply (i_alloc _ _ _ _ _ I). destruct M as [?|(k & X)]; auto. right. exists k. apply in_app_iff; auto. }
      rewrite P'; auto. intros (k & _ & X). destruct M as [Bp|(k' & X')].
      * apply (i_base _ _ _ _ _ I p k Bp). apply in_app_iff; auto.
      * assert (k = k') as <- by (apply (i_disj _ _ _ _ _ I) with p; apply in_app_iff; auto).
        pose proof (i_nodup _ _ _ _ _ I k) as ND. 
        clear - ND X X'. revert ND X. induction (fp k); simpl; intros; [auto|].
        inversion ND; subst. destruct X as [->|X]; auto. apply H1. apply in_app_iff; auto.
Qed.
