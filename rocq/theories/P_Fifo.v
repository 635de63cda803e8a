(** Property C42 (queue memory is released) and the memory side of C01.

    A history is a list of [MAdd k] (a dab object is allocated and queued for
    the tile in slot [k] of the tile map) and [MProcess k] (process_tile takes
    one dab of that tile, applies it and frees it).  [mrun] runs the history on
    an explicit heap; the result of a call is the dab object it queued or
    processed.  Freeing or reading something that is not allocated (a double
    free, a dangling pointer) is the outcome [UB]. *)
From Verif Require Import Base Fifo FifoProofs.

Definition live (h : heap) (p : ptr) : Prop := mem h p <> None.

(** a heap nobody has used, and a tile map with [n] empty slots *)
Definition empty_heap : heap := mkHeap (fun _ => None) O.
Definition empty_slots (n : nat) : list (option ptr) := repeat None n.

Notation mevent := (mcall * option ptr)%type.

(** dab objects queued for / processed on slot [k], oldest first *)
Fixpoint queued (k : nat) (tr : list mevent) : list ptr :=
  match tr with
  | [] => []
  | (MAdd k', Some p) :: tr' => if Nat.eqb k' k then p :: queued k tr' else queued k tr'
  | _ :: tr' => queued k tr'
  end.
Fixpoint processed (k : nat) (tr : list mevent) : list ptr :=
  match tr with
  | [] => []
  | (MProcess k', Some p) :: tr' => if Nat.eqb k' k then p :: processed k tr' else processed k tr'
  | _ :: tr' => processed k tr'
  end.

Definition slots_within (n : nat) (cs : list mcall) : Prop :=
  forall c, In c cs -> match c with MAdd k | MProcess k => (k < n)%nat end.

(** ** Proof *)

Lemma queued_app : forall k a b, queued k (a ++ b) = queued k a ++ queued k b.
Proof.
  induction a as [|[c r] a IH]; intros b; simpl; auto.
  destruct c, r; simpl; rewrite ?IH; auto. destruct (Nat.eqb k0 k); auto.
Qed.
Lemma processed_app : forall k a b, processed k (a ++ b) = processed k a ++ processed k b.
Proof.
  induction a as [|[c r] a IH]; intros b; simpl; auto.
  destruct c, r; simpl; rewrite ?IH; auto. destruct (Nat.eqb k0 k); auto.
Qed.

Definition minv (base : ptr -> Prop) (h : heap) (slots : list (option ptr)) (tr : list mevent) : Prop :=
  exists fp pay, inv base h slots fp pay /\
    (forall k, queued k tr = processed k tr ++ pay k) /\
    (forall k p, In p (queued k tr) -> (p < brk h)%nat) /\
    (forall k, NoDup (queued k tr)) /\
    (forall k k' p, In p (queued k tr) -> In p (queued k' tr) -> k = k').

Lemma mstep_minv : forall base h slots tr c, minv base h slots tr ->
  (match c with MAdd k | MProcess k => (k < length slots)%nat end) ->
  exists h' slots' r, mstep (h, slots) c = Ok (h', slots', r) /\
    length slots' = length slots /\ minv base h' slots' (tr ++ [(c, r)]).
Proof.
  intros base h slots tr c (fp & pay & I & Q & L & N & D) Hc.
  destruct c as [k|k]; simpl mstep.
  - destruct (add_inv _ _ _ _ _ k I Hc) as (op & h' & slots' & fp' & E & Ln & Eop & Lt & Nb & I').
    rewrite E. cbn [obind]. exists h', slots', (Some op). split; [reflexivity|]. split; [auto|].
    exists fp', (fset pay k (pay k ++ [op])). split; [auto|].
    assert (Hq : forall k', queued k' (tr ++ [(MAdd k, Some op)]) =
              queued k' tr ++ (if Nat.eqb k k' then [op] else [])).
    { intros. rewrite queued_app. simpl. destruct (Nat.eqb k k'); auto. }
    assert (Old : forall k', ~ In op (queued k' tr)).
    { intros k' X. apply L in X. lia. }
    split; [|split; [|split]].
    + intros k'. rewrite Hq, processed_app, Q. simpl. rewrite app_nil_r.
      unfold fset. destruct (Nat.eqb_spec k k') as [<-|_].
      * now rewrite app_assoc.
      * now rewrite app_nil_r.
    + intros k' p. rewrite Hq, in_app_iff. intros [X|X]; [apply L in X; lia|].
      destruct (Nat.eqb k k'); simpl in X; [|contradiction]. destruct X as [<-|[]]. lia.
    + intros k'. rewrite Hq. destruct (Nat.eqb k k'); [|rewrite app_nil_r; auto].
      apply (Permutation.Permutation_NoDup (l := op :: queued k' tr)).
      * apply Permutation.Permutation_cons_append.
      * constructor; auto.
    + intros k1 k2 p. rewrite !Hq, !in_app_iff.
      intros [X1|X1] [X2|X2]; eauto.
      * destruct (Nat.eqb k k2); simpl in X2; [|contradiction]. destruct X2 as [<-|[]]. destruct (Old k1); auto.
      * destruct (Nat.eqb k k1); simpl in X1; [|contradiction]. destruct X1 as [<-|[]]. destruct (Old k2); auto.
      * destruct (Nat.eqb_spec k k1); simpl in X1; [|contradiction].
        destruct (Nat.eqb_spec k k2); simpl in X2; [|contradiction]. congruence.
  - destruct (process_inv _ _ _ _ _ k I Hc) as (o & h' & slots' & fp' & E & Ln & Eo & B & I').
    rewrite E. cbn [obind]. exists h', slots', o. split; [reflexivity|]. split; [auto|].
    exists fp', (fset pay k (tl (pay k))). split; [auto|].
    assert (Hq : forall k', queued k' (tr ++ [(MProcess k, o)]) = queued k' tr).
    { intros. rewrite queued_app. simpl. apply app_nil_r. }
    rewrite B. split; [|split; [|split]].
    + intros k'. rewrite Hq, processed_app, Q, <- app_assoc. f_equal.
      unfold fset. simpl. destruct (Nat.eqb_spec k k') as [<-|_].
      * subst o. destruct (pay k); reflexivity.
      * destruct o; reflexivity.
    + intros k' p. rewrite Hq. apply L.
    + intros k'. rewrite Hq. apply N.
    + intros k1 k2 p. rewrite !Hq. apply D.
Qed.

Lemma mrun_minv : forall cs base h slots tr, minv base h slots tr ->
  slots_within (length slots) cs ->
  exists h' slots' rs, mrun (h, slots) cs = Ok (h', slots', rs) /\ length rs = length cs /\
    minv base h' slots' (tr ++ combine cs rs).
Proof.
  induction cs as [|c cs IH]; intros base h slots tr I W.
  - exists h, slots, []. split; [reflexivity|]. split; [auto|]. simpl. rewrite app_nil_r. auto.
  - destruct (mstep_minv base h slots tr c I) as (h1 & slots1 & r & E & Ln & I1).
    { apply (W c); simpl; auto. }
    destruct (IH base h1 slots1 (tr ++ [(c, r)]) I1) as (h2 & slots2 & rs & E2 & Lr & I2).
    { rewrite Ln. intros c' X. apply W. simpl; auto. }
    exists h2, slots2, (r :: rs). cbn [mrun]. rewrite E. cbn [obind]. rewrite E2. cbn [obind].
    split; [reflexivity|]. split; [simpl; congruence|].
    simpl combine. rewrite <- app_assoc in I2. exact I2.
Qed.

Lemma minv_start : forall n, minv (fun _ => False) empty_heap (empty_slots n) [].
Proof.
  intros n. exists (fun _ => []), (fun _ => []).
  assert (forall k, nth k (empty_slots n) None = None) as E.
  { intros k. unfold empty_slots. clear. revert k. induction n; destruct k; simpl; auto. }
  split; [|split; [|split; [|split]]]; simpl; auto; try tauto; try constructor; intros; simpl in *; try tauto; auto.
  - rewrite E in H. discriminate.
  - constructor.
  - split; [intros X; now destruct X|]. intros [[]|(k & [])].
  - intros p _. reflexivity.
Qed.

(** ** Theorems *)

(** C42, what is true: every history runs without touching freed memory, what
    is processed is what was queued in the same order, and after the surface is
    freed ([mem_free_all]: operation_queue_free) the objects still allocated are
    exactly the dab objects that were queued and never processed.  All list
    items and fifo headers are released exactly once. *)
Theorem C42_exact_leak_partial : forall n cs, slots_within n cs ->
  exists h slots rs h',
    mrun (empty_heap, empty_slots n) cs = Ok (h, slots, rs) /\
    length rs = length cs /\
    mem_free_all h slots = Ok h' /\
    let tr := combine cs rs in
    (forall k, exists rest, queued k tr = processed k tr ++ rest) /\
    forall p, live h' p <-> exists k, In p (queued k tr) /\ ~ In p (processed k tr).
Proof.
  intros n cs W.
  destruct (mrun_minv cs _ _ _ [] (minv_start n)) as (h & slots & rs & E & Lr & (fp & pay & I & Q & L & N & D)).
  { unfold empty_slots. rewrite repeat_length. auto. }
  simpl app in *.
  destruct (free_all_inv _ _ _ _ _ I) as (h' & E' & M).
  exists h, slots, rs, h'. split; [auto|]. split; [auto|]. split; [auto|]. cbv zeta. split.
  - intros k. exists (pay k). apply Q.
  - intros p. unfold live. rewrite M. split.
    + intros [[]|(k & X)]. exists k. rewrite Q. split; [apply in_app_iff; auto|].
      intros Y. specialize (N k). rewrite Q in N. clear - N X Y.
      induction (processed k (combine cs rs)); [auto|]. simpl in *. inversion N; subst.
      destruct Y as [->|Y]; auto. apply H1, in_app_iff; auto.
    + intros (k & X & Y). right. exists k. rewrite Q, in_app_iff in X. tauto.
Qed.
Print Assumptions C42_exact_leak_partial.

(** C42, second half: after everything queued was processed, freeing releases
    everything. *)
Theorem C42_drained_queue_leaks_nothing : forall n cs h slots rs, slots_within n cs ->
  mrun (empty_heap, empty_slots n) cs = Ok (h, slots, rs) ->
  (forall k, length (processed k (combine cs rs)) = length (queued k (combine cs rs))) ->
  exists h', mem_free_all h slots = Ok h' /\ forall p, ~ live h' p.
Proof.
  intros n cs h slots rs W E Dr.
  destruct (C42_exact_leak_partial n cs W) as (h1 & s1 & r1 & h' & E1 & _ & F & P & L).
  rewrite E in E1. inversion E1; subst. exists h'. split; [auto|].
  intros p X. apply L in X. destruct X as (k & X & Y). destruct (P k) as (rest & Q).
  specialize (Dr k). rewrite Q, app_length in Dr. destruct rest; [|simpl in Dr; lia].
  rewrite app_nil_r in Q. rewrite Q in X. contradiction.
Qed.
Print Assumptions C42_drained_queue_leaks_nothing.

(** C42, first half, is false: free the surface while one dab is queued and the
    dab object stays allocated for ever. *)
Theorem C42_queued_dab_released_refuted : exists cs h slots rs h' p,
  slots_within 4 cs /\
  mrun (empty_heap, empty_slots 4) cs = Ok (h, slots, rs) /\
  mem_free_all h slots = Ok h' /\
  In (Some p) rs /\ live h' p.
Proof.
  exists [MAdd 2]. do 5 eexists. split; [|split; [reflexivity|split; [reflexivity|split; [simpl; left; reflexivity|]]]].
  - intros c [<-|[]]. lia.
  - vm_compute. discriminate.
Qed.
Print Assumptions C42_queued_dab_released_refuted.

Definition C42_history : list mcall :=
  [MAdd 2; MAdd 2; MAdd 0; MProcess 2; MProcess 1; MAdd 2; MProcess 2; MProcess 2; MProcess 2; MProcess 0].
Example C42_example :
  slots_within 4 C42_history /\
  exists h slots rs, mrun (empty_heap, empty_slots 4) C42_history = Ok (h, slots, rs) /\
    length (queued 2 (combine C42_history rs)) = 3%nat /\
    (forall k, length (processed k (combine C42_history rs)) = length (queued k (combine C42_history rs))).
Proof.
  split.
  - intros c X. cbn in X. repeat (destruct X as [<-|X]; [lia|]). destruct X.
  - assert (match mrun (empty_heap, empty_slots 4) C42_history with Ok (_, _, r) => r | _ => [] end =
      [Some 0; Some 3; Some 5; Some 0; None; Some 8; Some 3; Some 8; None; Some 5]%nat) as R
      by (vm_compute; reflexivity).
    revert R. generalize (mrun (empty_heap, empty_slots 4) C42_history).
    intros [[[h slots] rs]| |] R; try discriminate R.
    exists h, slots, rs. rewrite R. split; [reflexivity|]. split; [reflexivity|].
    intros k. destruct k as [|[|[|k]]]; reflexivity.
Qed.
