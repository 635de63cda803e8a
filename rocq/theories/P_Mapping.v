(** Properties C21 and C22: setting curves. *)
From Verif Require Import Base F32 F32Proofs Arith Mapping MappingFloat.
From Coq Require Import Reals Lra.
From Flocq Require Import Core.Core IEEE754.BinarySingleNaN.
Local Open Scope Z_scope.

(** The calls that change a mapping. *)
Inductive edit (K : arith) : Type :=
| SetBase (v : K)
| SetN (input n : Z)
| SetPoint (input index : Z) (x y : K).
Arguments SetBase {K}. Arguments SetN {K}. Arguments SetPoint {K}.

Definition apply_edit {K : arith} (m : mapping K) (e : edit K) : outcome (mapping K) :=
  match e with
  | SetBase v => Ok (mapping_set_base m v)
  | SetN input n => mapping_set_n m input n
  | SetPoint input index x y => mapping_set_point m input index x y
  end.
(** a history of calls on a new mapping; fails if one of them fails *)
Definition edited {K : arith} (inputs : nat) (es : list (edit K)) (m : mapping K) : Prop :=
  ofold apply_edit es (mapping_new K inputs) = Ok m.

(** What the user set last. *)
Definition last_n {K : arith} (es : list (edit K)) (input : Z) : Z :=
  fold_left (fun c e => match e with SetN j n => if j =? input then n else c | _ => c end) es 0.
Definition last_base {K : arith} (es : list (edit K)) : K :=
  fold_left (fun c e => match e with SetBase v => v | _ => c end) es (nofZ 0).
Definition last_point {K : arith} (es : list (edit K)) (input index : Z) : option (K * K) :=
  fold_left (fun c e => match e with
                        | SetPoint j k x y => if (j =? input) && (k =? index) then Some (x, y) else c
                        | _ => c end) es None.
(** a call that respects the documented limits, given the calls before it *)
Definition legal {K : arith} (inputs : nat) (es : list (edit K)) (e : edit K) : Prop :=
  match e with
  | SetBase _ => True
  | SetN input n => 0 <= input < Z.of_nat inputs /\ (n = 0 \/ 2 <= n <= 64)
  | SetPoint input index x y =>
      0 <= input < Z.of_nat inputs /\ 0 <= index < last_n es input /\
      (0 < index -> exists x' y', last_point es input (index - 1) = Some (x', y') /\ nle x' x = true)
  end.

(** ** Invariant *)
Section Inv.
  Context (K : arith).
  Definition pt_at (es : list (edit K)) (j k : Z) : option K * option K :=
    match last_point es j k with Some (x, y) => (Some x, Some y) | None => (None, None) end.
  Definition good (inputs : nat) (es : list (edit K)) (m : mapping K) : Prop :=
    mp_base m = last_base es /\
    length (mp_points m) = inputs /\
    mp_used m = Z.of_nat (length (filter (fun p : control K => negb (cp_n p =? 0)) (mp_points m))) /\
    forall j, (j < inputs)%nat -> exists p, nth_error (mp_points m) j = Some p /\
      cp_n p = last_n es (Z.of_nat j) /\ (cp_n p = 0 \/ 2 <= cp_n p <= 64) /\
      length (cp_x p) = 64%nat /\ length (cp_y p) = 64%nat /\
      forall k, (k < 64)%nat -> nth_error (cp_x p) k = Some (fst (pt_at es (Z.of_nat j) (Z.of_nat k))) /\
                                nth_error (cp_y p) k = Some (snd (pt_at es (Z.of_nat j) (Z.of_nat k))).

  Lemma last_n_snoc : forall (es : list (edit K)) e j,
    last_n (es ++ [e]) j = match e with SetN i n => if i =? j then n else last_n es j | _ => last_n es j end.
  Proof. intros. unfold last_n. rewrite fold_left_app. destruct e; reflexivity. Qed.
  Lemma last_point_snoc : forall (es : list (edit K)) e j k,
    last_point (es ++ [e]) j k =
    match e with SetPoint i l x y => if (i =? j) && (l =? k) then Some (x, y) else last_point es j k | _ => last_point es j k end.
  Proof. intros. unfold last_point. rewrite fold_left_app. destruct e; reflexivity. Qed.
  Lemma last_base_snoc : forall (es : list (edit K)) e,
    last_base (es ++ [e]) = match e with SetBase v => v | _ => last_base es end.
  Proof. intros. unfold last_base. rewrite fold_left_app. destruct e; reflexivity. Qed.

  Lemma nth_error_repeat : forall A (a : A) n k, (k < n)%nat -> nth_error (repeat a n) k = Some a.
  Proof. induction n; intros [|k] H; try lia; cbn; auto. apply IHn. lia. Qed.

  Lemma nth_error_upd' : forall A (l : list A) n m v, (n < length l)%nat ->
    nth_error (upd l n v) m = if Nat.eqb n m then Some v else nth_error l m.
  Proof. induction l; intros [|n] [|m] v H; cbn in *; try lia; auto. apply IHl. lia. Qed.

  Lemma filter_upd : forall A (f : A -> bool) (l : list A) n v a, nth_error l n = Some a ->
    (length (filter f (upd l n v)) + (if f a then 1 else 0) = length (filter f l) + (if f v then 1 else 0))%nat.
  Proof.
    induction l; intros [|n] v b H; try discriminate.
    - injection H as ->. cbn [upd filter]. destruct (f b), (f v); cbn [length]; lia.
    - cbn [upd filter]. specialize (IHl n v b H). destruct (f a); cbn [length]; lia.
  Qed.

  Lemma filter_le : forall A (f : A -> bool) (l : list A), (length (filter f l) <= length l)%nat.
  Proof. induction l; cbn; auto. destruct (f a); cbn; lia. Qed.

  Lemma good_new : forall inputs, good inputs [] (mapping_new K inputs).
  Proof.
    intros. split; [reflexivity|]. cbn [mapping_new mp_points mp_used]. split; [apply repeat_length|]. split.
    - induction inputs; cbn; auto.
    - intros j Hj. eexists. split; [apply nth_error_repeat; auto|]. cbn [cp_n cp_x cp_y]. repeat split; auto; apply nth_error_repeat; auto.
  Qed.

  Lemma control_ok : forall inputs es m j, good inputs es m -> 0 <= j < Z.of_nat inputs ->
    exists p, control_of m j = Ok p /\ nth_error (mp_points m) (Z.to_nat j) = Some p /\
      cp_n p = last_n es j /\ (cp_n p = 0 \/ 2 <= cp_n p <= 64) /\ length (cp_x p) = 64%nat /\ length (cp_y p) = 64%nat /\
      forall k, 0 <= k < 64 ->
        nth_error (cp_x p) (Z.to_nat k) = Some (fst (pt_at es j k)) /\ nth_error (cp_y p) (Z.to_nat k) = Some (snd (pt_at es j k)).
  Proof.
    intros inputs es m j (B & L & U & G) Hj. destruct (G (Z.to_nat j)) as (p & E & N & R & Lx & Ly & P); [lia|].
    rewrite Z2Nat.id in N, P by lia.
    exists p. unfold control_of. rewrite L, E.
    destruct (Z.leb_spec 0 j); [|lia]. destruct (Z.ltb_spec j (Z.of_nat inputs)); [|lia]. cbn [andb].
    repeat (split; auto); specialize (P (Z.to_nat k)); rewrite Z2Nat.id in P by lia; apply P; lia.
  Qed.

  Lemma control_bad : forall inputs es m j, good inputs es m -> ~ 0 <= j < Z.of_nat inputs -> control_of m j = Abort.
  Proof.
    intros inputs es m j (B & L & U & G) Hj. unfold control_of. rewrite L.
    destruct (Z.leb_spec 0 j); destruct (Z.ltb_spec j (Z.of_nat inputs)); cbn; auto; lia.
  Qed.

  Lemma set_n_ok : forall inputs es m j n, good inputs es m -> legal inputs es (SetN j n) ->
    exists m', mapping_set_n m j n = Ok m' /\ good inputs (es ++ [SetN j n]) m'.
  Proof.
    intros inputs es m j n G (Hj & Hn). destruct (control_ok _ _ _ _ G Hj) as (p & E & En & N & R & Lx & Ly & P).
    unfold mapping_set_n. rewrite E. cbn [obind]. destruct G as (B & L & U & G).
    destruct (Z.leb_spec 0 n); [|lia]. destruct (Z.leb_spec n 64); [|lia]. cbn [andb negb].
    destruct (Z.eqb_spec n 1); [lia|].
    set (used := if (n =? 0) && negb (cp_n p =? 0) then _ else _).
    set (f := fun p : control K => negb (cp_n p =? 0)) in *.
    set (p' := mkControl (cp_x p) (cp_y p) n).
    assert (used = Z.of_nat (length (filter f (upd (mp_points m) (Z.to_nat j) p')))) as Hu.
    { pose proof (filter_upd _ f (mp_points m) (Z.to_nat j) p' p En) as F. unfold f at 2 4 in F. subst p'. cbn [cp_n] in F.
      subst used. rewrite U. destruct (Z.eqb_spec n 0), (Z.eqb_spec (cp_n p) 0); cbn [negb andb] in *; lia. }
    pose proof (filter_le _ f (upd (mp_points m) (Z.to_nat j) p')) as Le. rewrite upd_length, L in Le.
    destruct (Z.leb_spec 0 used); [|lia]. cbn [negb]. rewrite L. destruct (Z.leb_spec used (Z.of_nat inputs)); [|lia]. cbn [negb].
    eexists. split; [reflexivity|]. split; [cbn [mp_base]; rewrite last_base_snoc; auto|]. cbn [mp_points mp_used].
    rewrite upd_length. split; [auto|]. split; [exact Hu|]. intros i Hi.
    rewrite nth_error_upd' by lia. destruct (Nat.eqb_spec (Z.to_nat j) i).
    - eexists. split; [reflexivity|]. cbn [cp_n cp_x cp_y]. rewrite last_n_snoc. destruct (Z.eqb_spec j (Z.of_nat i)); [|lia].
      repeat (split; auto); unfold pt_at; rewrite last_point_snoc; fold (pt_at es (Z.of_nat i) (Z.of_nat k));
        destruct (P (Z.of_nat k)) as (P1 & P2); try lia; rewrite Nat2Z.id in *; subst i; rewrite Z2Nat.id in * by lia; auto.
    - destruct (G i Hi) as (q & E1 & E2 & E3 & E4 & E5 & E6). exists q. rewrite last_n_snoc. destruct (Z.eqb_spec j (Z.of_nat i)); [lia|].
      repeat (split; auto); unfold pt_at; rewrite last_point_snoc; apply E6; auto.
  Qed.

  Lemma cell_ok : forall (l : list (option K)) i v, 0 <= i -> nth_error l (Z.to_nat i) = Some (Some v) -> cell l i = Ok v.
  Proof. intros. unfold cell. destruct (Z.ltb_spec i 0); [lia|]. rewrite H0. reflexivity. Qed.

  Lemma pt_some : forall es j k x y, last_point es j k = Some (x, y) -> pt_at es j k = (Some x, Some y).
  Proof. intros. unfold pt_at. rewrite H. reflexivity. Qed.

  Lemma set_point_ok : forall inputs es m j k x y, good inputs es m -> legal inputs es (SetPoint j k x y) ->
    exists m', mapping_set_point m j k x y = Ok m' /\ good inputs (es ++ [SetPoint j k x y]) m'.
  Proof.
    intros inputs es m j k x y G (Hj & Hk & Hp). destruct (control_ok _ _ _ _ G Hj) as (p & E & En & N & R & Lx & Ly & P).
    unfold mapping_set_point. rewrite E. cbn [obind]. destruct G as (B & L & U & G).
    destruct (Z.leb_spec 0 k); [|lia]. destruct (Z.ltb_spec k 64); [|lia]. cbn [andb negb].
    destruct (Z.ltb_spec k (cp_n p)); [|lia]. cbn [negb].
    match goal with |- exists m', obind ?c _ = _ /\ _ => assert (c = Ok tt) as -> end.
    { destruct (Z.ltb_spec 0 k); auto. destruct (Hp H2) as (x' & y' & E1 & E2).
      rewrite (cell_ok _ _ x'); [cbn [obind]; rewrite E2; auto|lia|].
      destruct (P (k - 1)) as (P1 & _); [lia|]. rewrite P1. apply pt_some in E1. rewrite E1. reflexivity. }
    cbn [obind]. eexists. split; [reflexivity|]. split; [cbn [mp_base]; rewrite last_base_snoc; auto|]. cbn [mp_points mp_used].
    rewrite upd_length. split; [auto|]. split.
    { pose proof (filter_upd _ (fun p : control K => negb (cp_n p =? 0)) (mp_points m) (Z.to_nat j)
        (mkControl (upd (cp_x p) (Z.to_nat k) (Some x)) (upd (cp_y p) (Z.to_nat k) (Some y)) (cp_n p)) p En) as F.
      cbn [cp_n] in F. rewrite U. lia. }
    intros i Hi. rewrite nth_error_upd' by lia. destruct (Nat.eqb_spec (Z.to_nat j) i).
    - eexists. split; [reflexivity|]. cbn [cp_n cp_x cp_y]. rewrite last_n_snoc, !upd_length.
      assert (j = Z.of_nat i) as -> by lia.
      repeat (split; auto); unfold pt_at; rewrite last_point_snoc, nth_error_upd' by lia; rewrite Z.eqb_refl; cbn [andb];
        destruct (P (Z.of_nat k0)) as (P1 & P2); try lia; rewrite Nat2Z.id in *;
        destruct (Nat.eqb_spec (Z.to_nat k) k0); destruct (Z.eqb_spec k (Z.of_nat k0)); try lia; auto.
    - destruct (G i Hi) as (q & E1 & E2 & E3 & E4 & E5 & E6). exists q. rewrite last_n_snoc.
      repeat (split; auto); unfold pt_at; rewrite last_point_snoc; destruct (Z.eqb_spec j (Z.of_nat i)); try lia; apply E6; auto.
  Qed.

  Lemma set_point_inv : forall inputs es m j k x y m', good inputs es m -> mapping_set_point m j k x y = Ok m' ->
    legal inputs es (SetPoint j k x y).
  Proof.
    intros inputs es m j k x y m' G H. unfold mapping_set_point in H. apply obind_ok in H. destruct H as (p & E & H).
    destruct (Z_lt_dec j 0) as [|J1]; [rewrite (control_bad _ _ _ _ G) in E by lia; discriminate|].
    destruct (Z_lt_dec j (Z.of_nat inputs)) as [J2|]; [|rewrite (control_bad _ _ _ _ G) in E by lia; discriminate].
    destruct (control_ok inputs es m j G) as (q & E' & En & N & R & Lx & Ly & P); [lia|]. rewrite E in E'. injection E' as <-.
    destruct (Z.leb_spec 0 k); [|discriminate]. destruct (Z.ltb_spec k 64); [|discriminate]. cbn [andb negb] in H.
    destruct (Z.ltb_spec k (cp_n p)); [|discriminate]. cbn [negb] in H.
    split; [lia|]. split; [lia|]. intros Hk. apply obind_ok in H. destruct H as (u & H & _).
    destruct (Z.ltb_spec 0 k); [|lia]. apply obind_ok in H. destruct H as (x' & H & H4).
    unfold cell in H. destruct (Z.ltb_spec (k - 1) 0); [discriminate|].
    destruct (P (k - 1)) as (P1 & _); [lia|]. rewrite P1 in H. unfold pt_at in H.
    destruct (last_point es j (k - 1)) as [[x0 y0]|]; [|discriminate]. cbn [fst] in H. injection H as <-.
    exists x0, y0. split; auto. destruct (nle x0 x); [auto|discriminate].
  Qed.

  Lemma set_n_inv : forall inputs es m j n m', good inputs es m -> mapping_set_n m j n = Ok m' -> legal inputs es (SetN j n).
  Proof.
    intros inputs es m j n m' G H. unfold mapping_set_n in H. apply obind_ok in H. destruct H as (p & E & H).
    destruct (Z_lt_dec j 0) as [|J1]; [rewrite (control_bad _ _ _ _ G) in E by lia; discriminate|].
    destruct (Z_lt_dec j (Z.of_nat inputs)) as [J2|]; [|rewrite (control_bad _ _ _ _ G) in E by lia; discriminate].
    destruct (Z.leb_spec 0 n); [|discriminate]. destruct (Z.leb_spec n 64); [|discriminate]. cbn [andb negb] in H.
    destruct (Z.eqb_spec n 1); [discriminate|]. split; lia.
  Qed.

  Lemma edit_good : forall inputs es m e m', good inputs es m -> apply_edit m e = Ok m' -> good inputs (es ++ [e]) m'.
  Proof.
    intros inputs es m e m' G H. destruct e as [v|j n|j k x y]; cbn [apply_edit] in H.
    - injection H as <-. destruct G as (B & L & U & G). split; [cbn [mp_base mapping_set_base]; rewrite last_base_snoc; auto|].
      split; [auto|]. split; [auto|]. intros i Hi. destruct (G i Hi) as (q & E1 & E2 & E3 & E4 & E5 & E6). exists q.
      rewrite last_n_snoc. repeat (split; auto); unfold pt_at; rewrite last_point_snoc; apply E6; auto.
    - destruct (set_n_ok _ _ _ _ _ G (set_n_inv _ _ _ _ _ _ G H)) as (m2 & E & G2). congruence.
    - destruct (set_point_ok _ _ _ _ _ _ _ G (set_point_inv _ _ _ _ _ _ _ _ G H)) as (m2 & E & G2). congruence.
  Qed.

  Lemma edited_good : forall inputs es m, edited inputs es m -> good inputs es m.
  Proof.
    intros inputs es. induction es as [|e es IH] using rev_ind; intros m H.
    - injection H as <-. apply good_new.
    - unfold edited in H. rewrite ofold_app in H. apply obind_ok in H. destruct H as (m1 & E1 & E2).
      cbn [ofold] in E2. apply obind_ok in E2. destruct E2 as (m2 & E2 & E3). injection E3 as <-.
      eapply edit_good; eauto.
  Qed.
End Inv.

(** ** C22 *)
Lemma nth_error_ext' : forall A (l1 l2 : list A), (forall k, nth_error l1 k = nth_error l2 k) -> l1 = l2.
Proof.
  induction l1; intros [|b l2] H; auto.
  - specialize (H 0%nat). discriminate.
  - specialize (H 0%nat). discriminate.
  - pose proof (H 0%nat) as H0. injection H0 as ->. f_equal. apply IHl1. intros k. apply (H (S k)).
Qed.
Lemma nth_error_seq' : forall n s j, nth_error (seq s n) j = if Nat.ltb j n then Some (s + j)%nat else None.
Proof.
  induction n; intros s [|j]; cbn [seq nth_error]; auto.
  - cbn. f_equal. lia.
  - rewrite IHn. change (Nat.ltb (S j) (S n)) with (Nat.ltb j n). destruct (Nat.ltb j n); auto. f_equal. lia.
Qed.

(** Edits succeed exactly when they respect the limits (the internal counter
    asserts never fire), and afterwards the mapping says what was set last. *)
Theorem C22_edits_succeed_iff_legal : forall (K : arith) inputs (es : list (edit K)) m e,
  edited inputs es m -> ((exists m', apply_edit m e = Ok m') <-> legal inputs es e).
Proof.
  intros K inputs es m e H. apply edited_good in H. split.
  - intros (m' & E). destruct e as [v|j n|j k x y]; cbn [apply_edit] in E; [exact I|eapply set_n_inv|eapply set_point_inv]; eauto.
  - intros L. destruct e as [v|j n|j k x y]; cbn [apply_edit]; [eauto| |].
    + destruct (set_n_ok _ _ _ _ _ _ H L) as (m' & E & _). eauto.
    + destruct (set_point_ok _ _ _ _ _ _ _ _ H L) as (m' & E & _). eauto.
Qed.

Theorem C22_constant_iff_no_points : forall (K : arith) inputs (es : list (edit K)) m, edited inputs es m ->
  (mapping_is_constant m = true <-> forall input, 0 <= input < Z.of_nat inputs -> last_n es input = 0) /\
  mapping_inputs_used m =
    Z.of_nat (length (filter (fun j => negb (last_n es (Z.of_nat j) =? 0)) (seq 0 inputs))) /\
  (forall input, 0 <= input < Z.of_nat inputs -> mapping_get_n m input = Ok (last_n es input)).
Proof.
  intros K inputs es m H. apply edited_good in H.
  assert (U : mp_used m = Z.of_nat (length (filter (fun j => negb (last_n es (Z.of_nat j) =? 0)) (seq 0 inputs)))).
  { destruct H as (B & L & U & G). rewrite U. f_equal. clear U B.
    assert (map (fun p : control K => cp_n p) (mp_points m) = map (fun j => last_n es (Z.of_nat j)) (seq 0 inputs)) as E.
    { apply nth_error_ext'. intros j. rewrite !nth_error_map. destruct (Nat.ltb_spec j inputs).
      - destruct (G j H) as (p & -> & N & _). rewrite nth_error_seq'. destruct (Nat.ltb_spec j inputs); [|lia]. cbn. f_equal. auto.
      - rewrite (proj2 (nth_error_None (mp_points m) j)) by lia. rewrite nth_error_seq'. destruct (Nat.ltb_spec j inputs); [lia|]. reflexivity. }
    assert (F : forall A (f : A -> Z) l, length (filter (fun a => negb (f a =? 0)) l) = length (filter (fun z => negb (z =? 0)) (map f l))).
    { induction l; cbn; auto. destruct (negb (f a =? 0)); cbn; auto. }
    rewrite (F _ (fun p : control K => cp_n p)), E, <- (F _ (fun j => last_n es (Z.of_nat j))). reflexivity. }
  split; [|split].
  - unfold mapping_is_constant. rewrite Z.eqb_eq, U. split.
    + intros E input Hi. destruct (Z.eq_dec (last_n es input) 0); auto. exfalso.
      assert (In (Z.to_nat input) (filter (fun j => negb (last_n es (Z.of_nat j) =? 0)) (seq 0 inputs))) as I.
      { apply filter_In. split; [apply in_seq; lia|]. rewrite Z2Nat.id by lia. destruct (Z.eqb_spec (last_n es input) 0); auto. }
      destruct (filter _ _); [contradiction I|cbn [length] in E; lia].
    + intros E. replace (filter _ _) with (@nil nat); [reflexivity|]. symmetry. clear -E.
      assert (forall l, (forall j, In j l -> (j < inputs)%nat) -> filter (fun j => negb (last_n es (Z.of_nat j) =? 0)) l = []) as A.
      { induction l; intros; cbn [filter]; auto. rewrite E by (specialize (H a (or_introl eq_refl)); lia). cbn. apply IHl. intros. apply H. right. auto. }
      apply A. intros j Hj. apply in_seq in Hj. lia.
  - exact U.
  - intros input Hi. destruct (control_ok _ _ _ _ _ H Hi) as (p & E & _ & N & _). unfold mapping_get_n. rewrite E. cbn [obind]. congruence.
Qed.

(** A mapping that reports being constant evaluates to its base value for all
    inputs; skipping it loses nothing.  (Bit exact when [K] is C float.) *)
Theorem C22_constant_is_constant : forall (K : arith) inputs (es : list (edit K)) m data, edited inputs es m ->
  mapping_is_constant m = true -> mapping_calculate m data = Ok (last_base es).
Proof.
  intros K inputs es m data H C. apply edited_good in H. destruct H as (B & _).
  unfold mapping_calculate, mapping_is_constant in *. rewrite C, B. reflexivity.
Qed.

(** ** C21: evaluation *)

(** The curves the user entered: one list of control points per input, empty for
    an input without curve. *)
Definition entered {K : arith} (inputs : nat) (es : list (edit K)) (curves : list (list (K * K))) : Prop :=
  length curves = inputs /\
  forall j, (j < inputs)%nat ->
    last_n es (Z.of_nat j) = Z.of_nat (length (nth j curves [])) /\
    forall k, (k < length (nth j curves []))%nat ->
      last_point es (Z.of_nat j) (Z.of_nat k) = Some (nth k (nth j curves []) (nofZ 0, nofZ 0)).

(** [k] is the segment that belongs to [x]: the first whose right end is not
    left of [x], the last one if there is none. *)
Definition segment_of {K : arith} (pts : list (K * K)) (x : K) (k : nat) : Prop :=
  (k + 1 < length pts)%nat /\
  (forall i, (1 <= i <= k)%nat -> nlt (fst (nth i pts (nofZ 0, nofZ 0))) x = true) /\
  ((k + 2 = length pts)%nat \/ nlt (fst (nth (k + 1) pts (nofZ 0, nofZ 0))) x = false).

Definition line {K : arith} (p q : K * K) (x : K) : K :=
  if neqb (fst p) (fst q) || neqb (snd p) (snd q) then snd p
  else ndiv (nadd (nmul (snd q) (nsub x (fst p))) (nmul (snd p) (nsub (fst q) x))) (nsub (fst q) (fst p)).

Section Eval.
  Context (K : arith).
  Definition matches (p : control K) (pts : list (K * K)) : Prop :=
    cp_n p = Z.of_nat (length pts) /\
    forall k, (k < length pts)%nat -> cell (cp_x p) (Z.of_nat k) = Ok (fst (nth k pts (nofZ 0, nofZ 0))) /\
                                      cell (cp_y p) (Z.of_nat k) = Ok (snd (nth k pts (nofZ 0, nofZ 0))).

  Lemma segment_ok : forall (p : control K) pts x, matches p pts -> forall fuel i,
    (length pts <= i + fuel)%nat -> (2 <= i <= length pts)%nat ->
    (forall l, (1 <= l <= i - 2)%nat -> nlt (fst (nth l pts (nofZ 0, nofZ 0))) x = true) ->
    exists k, segment_of pts x k /\
      segment p fuel (Z.of_nat i) x (fst (nth (i - 2) pts (nofZ 0, nofZ 0))) (snd (nth (i - 2) pts (nofZ 0, nofZ 0)))
        (fst (nth (i - 1) pts (nofZ 0, nofZ 0))) (snd (nth (i - 1) pts (nofZ 0, nofZ 0))) =
      Ok (fst (nth k pts (nofZ 0, nofZ 0)), snd (nth k pts (nofZ 0, nofZ 0)),
          fst (nth (k + 1) pts (nofZ 0, nofZ 0)), snd (nth (k + 1) pts (nofZ 0, nofZ 0))).
  Proof.
    intros p pts x (N & P). set (d := (nofZ 0, nofZ 0)) in *. induction fuel; intros i Hf Hi Hl.
    - exists (i - 2)%nat. replace (i - 2 + 1)%nat with (i - 1)%nat by lia. split; [|reflexivity].
      split; [lia|]. split; [auto|]. left. lia.
    - cbn [segment]. rewrite N. destruct (Z.ltb_spec (Z.of_nat i) (Z.of_nat (length pts))); cbn [andb].
      + destruct (nlt (fst (nth (i - 1) pts d)) x) eqn:E.
        * destruct (P i) as (-> & ->); [lia|]. cbn [obind].
          destruct (IHfuel (S i)) as (k & Hk & Ek); [lia|lia| |].
          { intros l Hl'. destruct (Nat.eq_dec l (i - 1)); [subst; auto|apply Hl; lia]. }
          exists k. split; auto. replace (S i - 2)%nat with (i - 1)%nat in Ek by lia. replace (S i - 1)%nat with i in Ek by lia.
          replace (Z.of_nat i + 1) with (Z.of_nat (S i)) by lia. exact Ek.
        * exists (i - 2)%nat. replace (i - 2 + 1)%nat with (i - 1)%nat by lia. split; [|reflexivity].
          split; [lia|]. split; [auto|]. right. replace (i - 2 + 1)%nat with (i - 1)%nat by lia. auto.
      + exists (i - 2)%nat. replace (i - 2 + 1)%nat with (i - 1)%nat by lia. split; [|reflexivity].
        split; [lia|]. split; [auto|]. left. lia.
  Qed.

  Lemma curve_ok : forall (p : control K) pts x, matches p pts -> (2 <= length pts)%nat ->
    exists k, segment_of pts x k /\
      curve_value p x = Ok (line (nth k pts (nofZ 0, nofZ 0)) (nth (k + 1) pts (nofZ 0, nofZ 0)) x).
  Proof.
    intros p pts x M L. destruct (segment_ok p pts x M (Z.to_nat (cp_n p)) 2) as (k & S & E).
    { destruct M as (-> & _). lia. } { lia. } { intros. lia. }
    exists k. split; auto. unfold curve_value. destruct M as (N & P).
    destruct (P 0%nat) as (E1 & E2); [lia|]. destruct (P 1%nat) as (E3 & E4); [lia|].
    change (Z.of_nat 0) with 0 in *. change (Z.of_nat 1) with 1 in *. change (Z.of_nat 2) with 2 in E.
    rewrite E1, E2. cbn [obind]. rewrite E3, E4. cbn [obind]. change (2 - 2)%nat with 0%nat in E. change (2 - 1)%nat with 1%nat in E.
    rewrite E. cbn [obind]. unfold line. destruct (_ || _); reflexivity.
  Qed.

  (** contribution of one input *)
  Definition contributes (pts : list (K * K)) (x y : K) : Prop :=
    exists k, segment_of pts x k /\ y = line (nth k pts (nofZ 0, nofZ 0)) (nth (k + 1) pts (nofZ 0, nofZ 0)) x.

  (** running total over the inputs, in order; inputs without curve are skipped *)
  Inductive total : list (list (K * K)) -> list K -> K -> K -> Prop :=
  | total_nil : forall r, total [] [] r r
  | total_skip : forall cs x xs r r', total cs xs r r' -> total ([] :: cs) (x :: xs) r r'
  | total_add : forall c cs x xs y r r', contributes c x y -> total cs xs (nadd r y) r' -> total (c :: cs) (x :: xs) r r'.

  Lemma sum_ok : forall ps curves data r, Forall2 matches ps curves -> length data = length curves ->
    Forall (fun c => length c = 0%nat \/ (2 <= length c)%nat) curves ->
    exists r', sum_inputs ps data r = Ok r' /\ total curves data r r'.
  Proof.
    intros ps curves data r M. revert data r. induction M as [|p c ps cs M1 M IH]; intros data r L F.
    - destruct data; [|discriminate]. exists r. split; [reflexivity|constructor].
    - destruct data as [|x data]; [discriminate|]. inversion F as [|? ? F1 F2]; subst. injection L as L. cbn [sum_inputs].
      destruct (Z.eqb_spec (cp_n p) 0) as [Z0|Z0].
      + destruct M1 as (N & _). assert (length c = 0)%nat by lia. destruct c; [|discriminate].
        destruct (IH data r L F2) as (r' & E & T). exists r'. split; auto. constructor. auto.
      + destruct F1 as [F1|F1]; [destruct M1 as (N & _); lia|].
        destruct (curve_ok p c x M1 F1) as (k & S & ->). cbn [obind].
        destruct (IH data (nadd r (line (nth k c (nofZ 0, nofZ 0)) (nth (k + 1) c (nofZ 0, nofZ 0)) x)) L F2) as (r' & E & T).
        exists r'. split; auto. econstructor; eauto. exists k. auto.
  Qed.

  Lemma total_empty : forall curves data r, length data = length curves -> Forall (fun c => c = []) curves -> total curves data r r.
  Proof.
    induction curves; intros [|x data] r L F; try discriminate; [constructor|]. inversion F; subst. constructor. apply IHcurves; auto.
  Qed.
End Eval.
Lemma Forall2_nth : forall A B (Q : A -> list B -> Prop) ps cs, length ps = length cs ->
  (forall j, (j < length ps)%nat -> exists p, nth_error ps j = Some p /\ Q p (nth j cs [])) -> Forall2 Q ps cs.
Proof.
  induction ps; intros [|c cs] L H; try discriminate; constructor.
  - destruct (H 0%nat) as (p & E & HQ); [cbn; lia|]. injection E as <-. exact HQ.
  - apply IHps; [cbn in L; lia|]. intros j Hj. apply (H (S j)). cbn. lia.
Qed.
Lemma Forall_nth' : forall B (Q : list B -> Prop) cs, (forall j, (j < length cs)%nat -> Q (nth j cs [])) -> Forall Q cs.
Proof.
  induction cs; intros H; constructor.
  - apply (H 0%nat). cbn. lia.
  - apply IHcs. intros j Hj. apply (H (S j)). cbn. lia.
Qed.
Arguments contributes {K}. Arguments total {K}.

(** Evaluation, for every number type (bit exact for C float): whatever was
    entered, the result is the base value plus, input by input, the line of the
    segment that belongs to the input value; it always exists. *)
Theorem C21_evaluation : forall (K : arith) inputs (es : list (edit K)) m curves data,
  edited inputs es m -> entered inputs es curves -> length data = inputs ->
  exists r, mapping_calculate m data = Ok r /\ total curves data (last_base es) r.
Proof.
  intros K inputs es m curves data H (Lc & En) Ld. apply edited_good in H. pose proof H as G.
  destruct G as (B & L & U & G). rewrite <- B.
  assert (M : Forall2 (matches K) (mp_points m) curves /\ Forall (fun c => length c = 0%nat \/ (2 <= length c)%nat) curves).
  { assert (A : forall j, (j < inputs)%nat -> exists p, nth_error (mp_points m) j = Some p /\ matches K p (nth j curves []) /\
        (length (nth j curves []) = 0%nat \/ (2 <= length (nth j curves []))%nat)).
    { intros j Hj. destruct (G j Hj) as (p & E & N & R & Lx & Ly & P). destruct (En j Hj) as (E1 & E2). exists p. split; auto.
      split; [|lia]. split; [congruence|]. intros k Hk.
      destruct (P k) as (P1 & P2); [lia|]. specialize (E2 k Hk). destruct (nth k (nth j curves []) (nofZ 0, nofZ 0)) as [x y].
      apply pt_some in E2. rewrite E2 in P1, P2. split; apply cell_ok; try lia; rewrite Nat2Z.id; auto. }
    split; [apply Forall2_nth; [congruence|]|apply Forall_nth'; rewrite Lc]; intros j Hj; destruct (A j) as (p & A1 & A2 & A3); eauto.
    lia. }
  destruct M as (M & F). destruct (sum_ok K _ _ data (mp_base m) M) as (r & E & T); auto; [congruence|].
  unfold mapping_calculate. destruct (Z.eqb_spec (mp_used m) 0) as [Z0|]; [|eauto].
  exists (mp_base m). split; auto. apply total_empty; [congruence|].
  rewrite U in Z0. assert (length (filter (fun p : control K => negb (cp_n p =? 0)) (mp_points m)) = 0%nat) as Z1 by lia.
  clear -Z1 M. induction M as [|p c ps cs (M1 & _) M IH]; constructor; cbn [filter] in Z1.
  - destruct (Z.eqb_spec (cp_n p) 0); [|discriminate]. destruct c; [auto|cbn [length] in M1; lia].
  - destruct (Z.eqb_spec (cp_n p) 0); [auto|discriminate].
Qed.

(** The segment, hence the contribution, is determined by the points and the
    input value. *)
Theorem C21_contribution_unique : forall (K : arith) (pts : list (K * K)) x y1 y2,
  contributes pts x y1 -> contributes pts x y2 -> y1 = y2.
Proof.
  intros K pts x y1 y2 (k1 & (A1 & B1 & C1) & ->) (k2 & (A2 & B2 & C2) & ->).
  assert (k1 = k2) as ->; [|reflexivity].
  destruct (lt_eq_lt_dec k1 k2) as [[H|H]|H]; auto; exfalso.
  - destruct C1 as [C1|C1]; [lia|]. rewrite B2 in C1 by lia. discriminate.
  - destruct C2 as [C2|C2]; [lia|]. rewrite B1 in C2 by lia. discriminate.
Qed.

Local Open Scope R_scope.
Definition px (pts : list (R * R)) (i : nat) : R := fst (nth i pts (0, 0)).
Definition py (pts : list (R * R)) (i : nat) : R := snd (nth i pts (0, 0)).
Definition increasing (pts : list (R * R)) : Prop := forall i, (i + 1 < length pts)%nat -> px pts i < px pts (i + 1).

Lemma increasing_le : forall pts, increasing pts -> forall i j, (i <= j < length pts)%nat -> px pts i <= px pts j.
Proof.
  intros pts H i j (Hi & Hj). induction Hi; [lra|]. assert (px pts i <= px pts m) by (apply IHHi; lia).
  pose proof (H m ltac:(lia)). rewrite Nat.add_1_r in H1. lra.
Qed.
Lemma increasing_lt : forall pts, increasing pts -> forall i j, (i < j < length pts)%nat -> px pts i < px pts j.
Proof.
  intros pts H i j Hj. pose proof (H i ltac:(lia)). pose proof (increasing_le pts H (i + 1) j ltac:(lia)). lra.
Qed.

Lemma line_R : forall (p q : R * R) x, fst p < fst q ->
  (fst q - fst p) * (@line numR p q x - snd p) = (snd q - snd p) * (x - fst p).
Proof.
  intros [x0 y0] [x1 y1] x H. unfold line. cbn [fst snd numR car neqb nsub nadd nmul ndiv] in *.
  destruct (Req_bool_spec x0 x1); [lra|]. destruct (Req_bool_spec y0 y1); cbn [orb].
  - subst. ring.
  - field. lra.
Qed.

(** Exact arithmetic, points with increasing x.  Segment [i] is used for input
    values between its two ends; the first one also left of them, the last one
    also right of them.  The contribution is on the line through its ends. *)
Theorem C21_interpolation : forall (pts : list (R * R)) x y, increasing pts -> @contributes numR pts x y ->
  forall i, (i + 1 < length pts)%nat ->
    (i = 0%nat \/ px pts i <= x) -> ((i + 2 = length pts)%nat \/ x <= px pts (i + 1)) ->
    (px pts (i + 1) - px pts i) * (y - py pts i) = (py pts (i + 1) - py pts i) * (x - px pts i).
Proof.
  intros pts x y Inc (k & (Lk & Bk & Ck) & ->) i Li Bi Ci.
  change (k + 1 < @length (R * R) pts)%nat in Lk.
  change ((k + 2 = @length (R * R) pts)%nat \/ @nlt numR (fst (nth (k + 1) pts (@nofZ numR 0, @nofZ numR 0))) x = false) in Ck.
  assert (forall j, (j < length pts)%nat -> nth j pts (@nofZ numR 0, @nofZ numR 0) = nth j pts (0, 0)) as N.
  { intros. apply nth_indep. auto. }
  assert (forall j, (1 <= j <= k)%nat -> px pts j < x) as Bk'.
  { intros j Hj. specialize (Bk j Hj). rewrite N in Bk by lia. change (Rlt_bool (fst (nth j pts (0, 0))) x = true) in Bk. unfold px. destruct (Rlt_bool_spec (fst (nth j pts (0, 0))) x) as [Hl|Hl]; [exact Hl|]. discriminate Bk. }
  assert ((k + 2 = length pts)%nat \/ x <= px pts (k + 1)) as Ck'.
  { destruct Ck as [Ck|Ck]; auto. right. rewrite N in Ck by lia. change (Rlt_bool (fst (nth (k + 1) pts (0, 0))) x = false) in Ck. unfold px. destruct (Rlt_bool_spec (fst (nth (k + 1) pts (0, 0))) x) as [Hl|Hl]; [|exact Hl]. discriminate Ck. }
  rewrite !N by lia. pose proof (line_R (nth k pts (0, 0)) (nth (k + 1) pts (0, 0)) x (Inc k Lk)) as E.
  set (y := line _ _ x) in *. change ((px pts (k + 1) - px pts k) * (y - py pts k) = (py pts (k + 1) - py pts k) * (x - px pts k)) in E.
  destruct (lt_eq_lt_dec i k) as [[H|H]|H]; [|subst; auto|].
  - (* i < k: x is the right end of i, the left end of k *)
    destruct Ci as [Ci|Ci]; [lia|]. assert (px pts (i + 1) < x) by (apply Bk'; lia). lra.
  - (* k < i *)
    destruct Bi as [Bi|Bi]; [lia|]. destruct Ck' as [Ck'|Ck']; [lia|].
    pose proof (increasing_le pts Inc (k + 1) i ltac:(lia)).
    assert (i = k + 1)%nat as ->.
    { destruct (Nat.eq_dec i (k + 1)); auto. pose proof (increasing_lt pts Inc (k + 1) i ltac:(lia)). lra. }
    assert (x = px pts (k + 1)) by lra. subst x.
    assert (y = py pts (k + 1)). { pose proof (Inc k Lk). apply Rmult_eq_reg_l with (px pts (k + 1) - px pts k); [|lra]. lra. }
    rewrite H1. ring.
Qed.

(** Consequences: the curve goes through its points, and between two points it
    stays between their y values. *)
Theorem C21_through_points : forall (pts : list (R * R)) i y, increasing pts -> (2 <= length pts)%nat -> (i < length pts)%nat ->
  @contributes numR pts (px pts i) y -> y = py pts i.
Proof.
  intros pts i y Inc L Hi C. destruct (Nat.eq_dec i 0) as [->|].
  - pose proof (C21_interpolation pts _ y Inc C 0 ltac:(lia) (or_introl eq_refl)) as E.
    pose proof (Inc 0%nat ltac:(lia)). specialize (E (or_intror (Rlt_le _ _ H))).
    apply Rmult_eq_reg_l with (px pts (0 + 1) - px pts 0); [|lra]. lra.
  - pose proof (C21_interpolation pts _ y Inc C (i - 1) ltac:(lia)) as E.
    pose proof (Inc (i - 1)%nat ltac:(lia)). replace (i - 1 + 1)%nat with i in * by lia.
    specialize (E (or_intror (Rlt_le _ _ H)) (or_intror (Rle_refl _))).
    apply Rmult_eq_reg_l with (px pts i - px pts (i - 1)); [|lra]. lra.
Qed.

Theorem C21_between_neighbours : forall (pts : list (R * R)) x y i, increasing pts -> @contributes numR pts x y ->
  (i + 1 < length pts)%nat -> px pts i <= x <= px pts (i + 1) ->
  Rmin (py pts i) (py pts (i + 1)) <= y <= Rmax (py pts i) (py pts (i + 1)).
Proof.
  intros pts x y i Inc C Hi Hx.
  pose proof (C21_interpolation pts x y Inc C i Hi (or_intror (proj1 Hx)) (or_intror (proj2 Hx))) as E.
  pose proof (Inc i Hi) as P. set (x0 := px pts i) in *. set (x1 := px pts (i + 1)) in *. set (y0 := py pts i) in *. set (y1 := py pts (i + 1)) in *.
  set (t := (x - x0) / (x1 - x0)).
  assert (0 <= t <= 1) as Ht.
  { unfold t. split; [apply Rmult_le_pos; [lra|left; apply Rinv_0_lt_compat; lra]|].
    apply Rmult_le_reg_r with (x1 - x0); [lra|]. unfold Rdiv. rewrite Rmult_assoc, Rinv_l by lra. lra. }
  assert (y = y0 + t * (y1 - y0)) as ->.
  { apply Rmult_eq_reg_l with (x1 - x0); [|lra]. unfold t. field_simplify; lra. }
  unfold Rmin, Rmax. destruct (Rle_dec y0 y1); split; nra.
Qed.

(** Contributions add up. *)
Theorem C21_sum : forall (curves : list (list (R * R))) data base r, @total numR curves data base r ->
  exists ys, r = base + fold_right Rplus 0 ys /\ length ys = length curves /\
    forall j, (j < length curves)%nat ->
      (nth j curves [] = [] /\ nth j ys 0 = 0) \/ @contributes numR (nth j curves []) (nth j data 0) (nth j ys 0).
Proof.
  intros curves data base r T. induction T as [b|cs x xs b r T IH|c cs x xs y b r Hc T IH].
  - exists []. cbn. split; [lra|]. split; auto. intros. lia.
  - destruct IH as (ys & E & L & H). exists (0 :: ys). cbn [fold_right length]. split; [lra|]. split; [lia|].
    intros [|j] Hj; [left; auto|]. apply (H j). lia.
  - destruct IH as (ys & E & L & H). exists (y :: ys). cbn [fold_right length]. cbn [numR nadd] in E. split; [lra|]. split; [lia|].
    intros [|j] Hj; [right; auto|]. apply (H j). lia.
Qed.

(** Bit exact: inside a segment of moderate size the C float result is finite
    and within [Y * 2^-21 + 2^-100] of the exact interpolation, [Y] bounding the
    two y values. *)
Definition on_line (x0 y0 x1 y1 x : R) : R := y0 + (y1 - y0) * (x - x0) / (x1 - x0).

Theorem C21_float_accuracy : forall (p q : f32 * f32) (x : f32) Y,
  fin x -> fin (fst p) -> fin (snd p) -> fin (fst q) -> fin (snd q) ->
  b2r (fst p) <= b2r x <= b2r (fst q) -> bpow radix2 (-40) <= b2r (fst q) - b2r (fst p) ->
  Rabs (b2r (fst p)) <= bpow radix2 40 -> Rabs (b2r (fst q)) <= bpow radix2 40 ->
  Rabs (b2r (snd p)) <= Y -> Rabs (b2r (snd q)) <= Y -> Y <= bpow radix2 40 ->
  fin (@line num32 p q x) /\
  Rabs (b2r (@line num32 p q x) - on_line (b2r (fst p)) (b2r (snd p)) (b2r (fst q)) (b2r (snd q)) (b2r x))
    <= Y * bpow radix2 (-21) + bpow radix2 (-100).
Proof.
  intros [x0 y0] [x1 y1] x Y Fx Fx0 Fy0 Fx1 Fy1 Hx Hd B0 B1 Y0 Y1 HY. cbn [fst snd] in *.
  assert (0 < bpow radix2 (-40)) by apply bpow_gt_0.
  unfold line. cbn [fst snd num32 car neqb nsub nadd nmul ndiv].
  rewrite feq_spec by auto. destruct (Req_bool_spec (b2r x0) (b2r x1)); [lra|]. cbn [orb].
  rewrite feq_spec by auto. destruct (Req_bool_spec (b2r y0) (b2r y1)) as [E|E].
  - split; [auto|]. unfold on_line. rewrite <- E. replace (b2r y0 - _) with 0 by (field; lra). rewrite Rabs_R0.
    assert (0 <= Y) by (eapply Rle_trans; [apply Rabs_pos|exact Y0]).
    pose proof (bpow_gt_0 radix2 (-21)). pose proof (bpow_gt_0 radix2 (-100)).
    apply Rplus_le_le_0_compat; [apply Rmult_le_pos|]; lra.
  - destruct (line_float x x0 y0 x1 y1 Fx Fx0 Fy0 Fx1 Fy1 Hx Hd B0 B1 Y Y0 Y1 HY) as (F & Er). split; [exact F|].
    replace (on_line (b2r x0) (b2r y0) (b2r x1) (b2r y1) (b2r x))
      with ((b2r y1 * (b2r x - b2r x0) + b2r y0 * (b2r x1 - b2r x)) / (b2r x1 - b2r x0)); [exact Er|].
    unfold on_line. field. lra.
Qed.

(** ** What the code does not ensure: the x values may get out of order, because
    only the left neighbour is checked. *)
Theorem C21_points_stay_ordered_refuted :
  exists m : mapping numR, @edited numR 1 [@SetN numR 0 2; @SetPoint numR 0 0 0 0; @SetPoint numR 0 1 1 1; @SetPoint numR 0 0 5 0] m /\
    mapping_get_point m 0 0 = Ok (5, 0) /\ mapping_get_point m 0 1 = Ok (1, 1).
Proof.
  assert (Rle_bool 0 1 = true) as E by (apply Rle_bool_true; lra).
  eexists. split; [|split].
  - unfold edited. cbv -[Rle_bool IZR]. rewrite E. reflexivity.
  - reflexivity.
  - reflexivity.
Qed.

(** ** Concrete case: two inputs, a three-point curve on the first one. *)
Definition demo : list (edit numR) :=
  [@SetBase numR 10; @SetN numR 0 3; @SetPoint numR 0 0 0 0; @SetPoint numR 0 1 1 2; @SetPoint numR 0 2 3 (-2)].
Definition demo_curve : list (R * R) := [(0, 0); (1, 2); (3, -2)].
Example C21_case : exists m, edited 2 demo m /\ entered 2 demo [demo_curve; []] /\ increasing demo_curve /\
  mapping_is_constant m = false /\ mapping_calculate m [2; 7] = Ok 10.
Proof.
  assert (Rle_bool 0 1 = true) as E by (apply Rle_bool_true; lra).
  assert (Rle_bool 1 3 = true) as E2 by (apply Rle_bool_true; lra).
  eexists. split; [|split; [|split; [|split]]].
  - unfold edited, demo. cbv -[Rle_bool IZR]. rewrite E, E2. reflexivity.
  - split; [reflexivity|]. intros [|[|j]] Hj; [| |lia]; split; try reflexivity.
    + intros [|[|[|k]]] Hk; try reflexivity. cbn in Hk. lia.
    + cbn. intros. lia.
  - intros [|[|i]] Hi; unfold px; cbn; try lra. cbn in Hi. lia.
  - reflexivity.
  - unfold mapping_calculate. cbv -[Rlt_bool Req_bool IZR Rplus Rminus Rmult Rdiv].
    rewrite (Rlt_bool_true 1 2) by lra. cbv -[Rlt_bool Req_bool IZR Rplus Rminus Rmult Rdiv].
    rewrite (Req_bool_false 1 3) by lra. rewrite (Req_bool_false 2 (-2)) by lra. f_equal. field.
Qed.

Print Assumptions C22_edits_succeed_iff_legal.
Print Assumptions C22_constant_iff_no_points.
Print Assumptions C21_evaluation.
Print Assumptions C21_interpolation.
Print Assumptions C21_float_accuracy.
