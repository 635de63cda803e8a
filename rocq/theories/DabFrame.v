(** What painting towards a target can change in a brush. *)
From Verif Require Import Base Arith Color Mapping Settings Spectral Brush BrushProofs.
Local Open Scope Z_scope.

(** what one dab can change in a brush *)
Section Frame.
  Context {M : mixed} (L : mathlib M) {E : env M}.
  Definition dabbed (b b' : brush E) : Prop :=
    b' = mkBrush (b_painting b) (b_idling b) (b_states b') (b_buckets b') (b_nbuckets b) (b_minb b') (b_maxb b') (b_random b')
           (b_skip b) (b_skip_x b) (b_skip_y b) (b_skipped b) (b_rng b') (b_settings b) (b_values b') (b_gamma b) (b_m b) (b_q b) (b_reset b).
  Lemma dabbed_trans : forall a b c : brush E, dabbed a b -> dabbed b c -> dabbed a c.
  Proof. intros a b c H1 H2. unfold dabbed in *. rewrite H2. rewrite H1. reflexivity. Qed.
  Lemma dabbed_os : forall a b : brush E, only_states a b -> dabbed a b.
  Proof. intros a b [H _]. unfold dabbed. rewrite H. reflexivity. Qed.
  Lemma dabbed_values : forall (b : brush E) vs, dabbed b (with_values b vs).
  Proof. reflexivity. Qed.
  Lemma dabbed_dab : forall (b : brush E) l m lo hi g, dabbed b (with_dab b l m lo hi g).
  Proof. reflexivity. Qed.
  Lemma dabbed_random : forall (b : brush E) g r, dabbed b (with_random (with_rng b g) r).
  Proof. reflexivity. Qed.
  Lemma one_dab_frame : forall g (p p' : progress E), one_dab L g p = Ok p' -> dabbed (p_brush p) (p_brush p').
  Proof.
    intros g p p' O. unfold one_dab in O. cbv zeta in O. match type of O with (let '(_, _) := ?e in _) = _ => destruct e as [ddab moved] end.
    apply obind_ok in O. destruct O as (b1 & E1 & O). apply update_inv in E1. destruct E1 as (vs & _ & E1).
    assert (dabbed (p_brush p) b1) as D1.
    { rewrite E1. apply (dabbed_trans _ (step_pen L (p_brush p) (step_towards (p_brush p) g ddab (nar (nmul (wid (ndiv ddab (p_todo p))) (nsub (p_left p) (nofZ 0)))) (fun v => nmul (ndiv ddab (p_todo p)) v)))); [apply dabbed_os, (step_pen_os L)|].
      eapply dabbed_trans; [apply dabbed_values|apply dabbed_os, (step_filters_os L)]. }
    clear E1. apply obind_ok in O. destruct O as (((pn, b2), w2) & E2 & O). apply prepare_frame in E2. destruct E2 as [E2 _].
    assert (dabbed (p_brush p) b2) as D2.
    { eapply dabbed_trans; [exact D1|]. eapply dabbed_trans; [apply dabbed_os, (os_set b1 b1), os_refl|]. rewrite E2. apply dabbed_dab. }
    clear E2 D1. apply obind_ok in O. destruct O as ((r, rg) & _ & O).
    match type of O with context [count_dabs_to ?a ?b ?c ?d ?e] => destruct (count_dabs_to a b c d e) as [todo b3] eqn:E3 end.
    injection O as <-. cbn [p_brush]. apply count_os in E3. eapply dabbed_trans; [exact D2|]. eapply dabbed_trans; [apply dabbed_random|apply dabbed_os; exact E3].
  Qed.
  Lemma dabbed_refl : forall b : brush E, dabbed b b.
  Proof. intros []. reflexivity. Qed.
  Lemma dabs_frame : forall n g (p p' : progress E), dabs L n g p = Ok (Some p') -> dabbed (p_brush p) (p_brush p').
  Proof.
    induction n as [|n IH]; intros g p p' H; cbn [dabs] in H; destruct (pending p); try discriminate; try (injection H as <-; apply dabbed_refl).
    apply obind_ok in H. destruct H as (p1 & E1 & H). eapply dabbed_trans; [eapply one_dab_frame; exact E1|eapply IH; exact H].
  Qed.
  Lemma paint_dabs_frame : forall n b w g t (p : progress E), paint_dabs L n b w g t = Ok (Some p) -> dabbed b (p_brush p).
  Proof.
    intros n b w g t p H. unfold paint_dabs in H. cbv zeta in H. destruct (count_dabs_to _ _ _ _ _) as [todo b1] eqn:Ec. apply dabs_frame in H. cbn [p_brush] in H.
    eapply dabbed_trans; [apply dabbed_os; eapply count_os; exact Ec|exact H].
  Qed.
  Lemma update_frame : forall b p b', update_states L b p = Ok b' -> dabbed b b'.
  Proof.
    intros b p b' U. apply update_inv in U. destruct U as (vs & _ & ->). apply (dabbed_trans _ (step_pen L b p)); [apply dabbed_os, (step_pen_os L)|].
    eapply dabbed_trans; [apply dabbed_values|apply dabbed_os, (step_filters_os L)].
  Qed.
  (** ... and the end of the event *)
  Lemma paint_rest_frame : forall p g t a b', paint_rest L p g t = Ok (a, b') -> exists u v, dabbed (with_times (p_brush p) u v) b'.
  Proof.
    intros p g t a b' H. unfold paint_rest in H. apply obind_ok in H. destruct H as (b1 & E1 & H). cbv zeta in H. apply Ok_inj in H. apply update_frame in E1.
    set (b2 := set_st b1 STATE_PARTIAL_DABS _) in H. assert (dabbed (p_brush p) b2) as D by (eapply dabbed_trans; [exact E1|apply dabbed_os, (os_set b1 b1), os_refl]). clearbody b2. clear E1.
    assert (forall u v, dabbed (with_times (p_brush p) u v) (with_times b2 u v)) as K by (intros u v; unfold dabbed in *; rewrite D; reflexivity).
    unfold stroke_split in H. cbv zeta in H. revert H.
    generalize (match p_painted p with Some v => v | None => negb (nlt (nofZ 0) (b_idling b2) || neqb (b_painting b2) (nofZ 0)) end).
    intros [|] H; [injection H as _ <-; eauto|]. match type of H with (if ?c then _ else _) = _ => destruct c end; injection H as _ <-; eauto.
  Qed.
End Frame.
