(** Common vocabulary of the model: outcomes of C code, C integer
    conversions, array helpers.  Nothing here models a particular C function. *)
From Coq Require Export ZArith List Bool Lia.
From Coq Require Import ZifyBool FinFun.
Export ListNotations.
Open Scope Z_scope.
#[global] Arguments Z.mul : simpl never.
#[global] Arguments Z.add : simpl never.
#[global] Arguments Z.sub : simpl never.
#[global] Arguments Z.opp : simpl never.
#[global] Arguments Z.div : simpl never.
#[global] Arguments Z.modulo : simpl never.
#[global] Arguments Z.pow : simpl never.
#[global] Arguments Z.of_nat : simpl never.
#[global] Arguments Z.to_nat : simpl never.

(** Result of running a piece of C code.
    [Abort]: an [assert] of the source fails (the process is killed).
    [UB]: undefined behaviour of the C program (out-of-bounds access, signed
    overflow, division by zero, out-of-range float-to-int conversion). *)
Inductive outcome (A : Type) : Type :=
| Ok (a : A)
| Abort
| UB.
Arguments Ok {A} a.
Arguments Abort {A}.
Arguments UB {A}.

Definition obind {A B} (x : outcome A) (f : A -> outcome B) : outcome B :=
  match x with Ok a => f a | Abort => Abort | UB => UB end.

Notation "'let*' x ':=' e1 'in' e2" := (obind e1 (fun x => e2))
  (at level 200, x pattern, e1 at level 100, e2 at level 200, right associativity).

(** [for (a in l) s = f s a], stopping at the first failure. *)
Fixpoint ofold {S A} (f : S -> A -> outcome S) (l : list A) (s : S) : outcome S :=
  match l with
  | [] => Ok s
  | a :: l' => let* s' := f s a in ofold f l' s'
  end.

Definition is_ok {A} (x : outcome A) : Prop := exists a, x = Ok a.

(** C integer types (32-bit int, two's complement conversions). *)
Definition INT_MAX : Z := 2147483647.
Definition INT_MIN : Z := -2147483648.
Definition in_int (z : Z) : bool := (INT_MIN <=? z) && (z <=? INT_MAX).
(** Value of a signed expression: overflow is undefined. *)
Definition int_val (z : Z) : outcome Z := if in_int z then Ok z else UB.
Definition u16 (z : Z) : Z := z mod 65536.
Definition u32 (z : Z) : Z := z mod 4294967296.
Definition i16 (z : Z) : Z := (z + 32768) mod 65536 - 32768.

(** Arrays as lists. *)
Fixpoint upd {A} (l : list A) (n : nat) (v : A) : list A :=
  match l, n with
  | [], _ => []
  | _ :: l', O => v :: l'
  | a :: l', S n' => a :: upd l' n' v
  end.

Definition zrange (lo : Z) (n : nat) : list Z :=
  map (fun i => lo + Z.of_nat i) (seq 0 n).

(** ** Lemmas *)

Lemma upd_length : forall A (l : list A) n v, length (upd l n v) = length l.
Proof. induction l; destruct n; simpl; auto. Qed.

Lemma nth_upd_eq : forall A (l : list A) n v d,
  (n < length l)%nat -> nth n (upd l n v) d = v.
Proof. induction l; destruct n; simpl; intros; try lia; auto. apply IHl; lia. Qed.

Lemma nth_upd_neq : forall A (l : list A) n m v d,
  n <> m -> nth m (upd l n v) d = nth m l d.
Proof.
  induction l; destruct n, m; simpl; intros; auto; try congruence.
Qed.

Lemma nth_upd : forall A (l : list A) n m v d,
  nth m (upd l n v) d = if (Nat.eqb n m && Nat.ltb n (length l))%bool then v else nth m l d.
Proof.
  intros. destruct (Nat.eqb_spec n m); simpl.
  - subst. destruct (Nat.ltb_spec m (length l)).
    + apply nth_upd_eq; auto.
    + rewrite !nth_overflow; auto. rewrite upd_length; auto.
  - apply nth_upd_neq; auto.
Qed.

Lemma upd_over : forall A (l : list A) n v, (length l <= n)%nat -> upd l n v = l.
Proof. induction l; destruct n; simpl; intros; auto; try lia. f_equal. apply IHl; lia. Qed.

Lemma in_zrange : forall lo n z, In z (zrange lo n) <-> lo <= z < lo + Z.of_nat n.
Proof.
  intros. unfold zrange. rewrite in_map_iff. split.
  - intros (i & <- & H). apply in_seq in H. lia.
  - intros. exists (Z.to_nat (z - lo)). split; [lia|]. apply in_seq. lia.
Qed.

Lemma zrange_length : forall lo n, length (zrange lo n) = n.
Proof. intros. unfold zrange. now rewrite map_length, seq_length. Qed.

Lemma NoDup_zrange : forall lo n, NoDup (zrange lo n).
Proof.
  intros. unfold zrange. apply FinFun.Injective_map_NoDup.
  - intros a b H. lia.
  - apply seq_NoDup.
Qed.

Lemma obind_ok : forall A B (x : outcome A) (f : A -> outcome B) b,
  obind x f = Ok b -> exists a, x = Ok a /\ f a = Ok b.
Proof. intros A B [a| |] f b H; simpl in H; try discriminate. eauto. Qed.

Lemma ofold_app : forall S A (f : S -> A -> outcome S) l1 l2 s,
  ofold f (l1 ++ l2) s = obind (ofold f l1 s) (ofold f l2).
Proof.
  induction l1; intros; simpl; auto.
  destruct (f s a); simpl; auto.
Qed.

Lemma ofold_inv : forall S A (P : S -> Prop) (f : S -> A -> outcome S) l s s',
  (forall s a s', In a l -> P s -> f s a = Ok s' -> P s') ->
  P s -> ofold f l s = Ok s' -> P s'.
Proof.
  induction l; simpl; intros.
  - congruence.
  - apply obind_ok in H1. destruct H1 as (s1 & E1 & E2).
    apply (IHl s1 s'); auto.
    + intros. eapply H; eauto.
    + eapply H; [left; reflexivity| |]; eauto.
Qed.

Lemma ofold_total : forall S A (P : S -> Prop) (f : S -> A -> outcome S) l s,
  (forall s a, In a l -> P s -> exists s', f s a = Ok s' /\ P s') ->
  P s -> exists s', ofold f l s = Ok s' /\ P s'.
Proof.
  induction l; simpl; intros.
  - eauto.
  - destruct (H s a) as (s1 & E & P1); auto. rewrite E. simpl. apply IHl; auto.
Qed.

Lemma u16_small : forall z, 0 <= z < 65536 -> u16 z = z.
Proof. intros. unfold u16. apply Z.mod_small; lia. Qed.
Lemma u32_small : forall z, 0 <= z < 4294967296 -> u32 z = z.
Proof. intros. unfold u32. apply Z.mod_small; lia. Qed.
Lemma u16_range : forall z, 0 <= u16 z < 65536.
Proof. intros. unfold u16. apply Z.mod_pos_bound; lia. Qed.

Lemma int_val_ok : forall z, INT_MIN <= z <= INT_MAX -> int_val z = Ok z.
Proof.
  intros. unfold int_val, in_int. destruct (Z.leb_spec INT_MIN z); [|lia].
  destruct (Z.leb_spec z INT_MAX); [|lia]. reflexivity.
Qed.
Lemma int_val_inv : forall z v, int_val z = Ok v -> v = z /\ INT_MIN <= z <= INT_MAX.
Proof.
  intros z v H. unfold int_val, in_int in H. destruct (Z.leb_spec INT_MIN z); simpl in H; [|discriminate].
  destruct (Z.leb_spec z INT_MAX); simpl in H; [|discriminate]. inversion H. lia.
Qed.
