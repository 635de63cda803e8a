(** Integer facts about the blend modes of Blend.v. *)
From Verif Require Import Base F32 Blend.

Lemma ONE_val : ONE = 32768. Proof. reflexivity. Qed.

Ltac onez := rewrite ONE_val in *.

Lemma div_bounds : forall a, 0 <= a -> 0 <= a / 32768 /\ a / 32768 * 32768 <= a < a / 32768 * 32768 + 32768.
Proof. intros. assert (X := Z.div_mod a 32768 ltac:(lia)). assert (Y := Z.mod_pos_bound a 32768 ltac:(lia)).
  split; [apply Z.div_pos; lia|lia]. Qed.

Lemma opa_a_exact : forall m o, 0 <= m <= ONE -> 0 <= o <= ONE ->
  opa_a_of m o = m * o / ONE /\ 0 <= m * o / ONE <= ONE.
Proof.
  intros. onez. unfold opa_a_of. rewrite ONE_val. rewrite u32_small by nia.
  split; [auto|]. destruct (div_bounds (m * o)); nia.
Qed.

Lemma opa_b_exact : forall a, 0 <= a <= ONE -> opa_b_of a = ONE - a.
Proof. intros. onez. unfold opa_b_of. rewrite ONE_val. apply u32_small. lia. Qed.

(** the exact channel formula, and its bounds *)
Lemma mix_exact : forall oa ob col c, 0 <= oa -> 0 <= ob -> oa + ob <= ONE ->
  0 <= col <= ONE -> 0 <= c <= ONE ->
  mix_chan oa ob col c = (oa * col + ob * c) / ONE /\
  0 <= (oa * col + ob * c) / ONE <= ONE.
Proof.
  intros. onez. unfold mix_chan. rewrite ONE_val.
  rewrite (u32_small (oa * col)) by nia. rewrite (u32_small (ob * c)) by nia.
  rewrite u32_small by nia.
  assert (0 <= oa * col + ob * c <= 32768 * 32768) by nia.
  destruct (div_bounds (oa * col + ob * c)); [lia|].
  rewrite u16_small by lia. lia.
Qed.

Lemma alpha_exact : forall oa ob a, 0 <= oa -> 0 <= ob -> oa + ob <= ONE -> 0 <= a <= ONE ->
  u16 (u32 (oa + u32 (ob * a) / ONE)) = oa + ob * a / ONE /\
  0 <= oa + ob * a / ONE <= ONE.
Proof.
  intros. onez. rewrite (u32_small (ob * a)) by nia.
  assert (0 <= ob * a <= ob * 32768) by nia.
  destruct (div_bounds (ob * a)); [lia|].
  rewrite u32_small by lia. rewrite u16_small by lia. lia.
Qed.

(** a channel never exceeds the new alpha *)
Lemma chan_le_alpha : forall oa ob col c a, 0 <= oa -> 0 <= ob ->
  0 <= col <= ONE -> 0 <= c <= a ->
  (oa * col + ob * c) / ONE <= oa + ob * a / ONE.
Proof.
  intros. onez. replace (oa + ob * a / 32768) with ((oa * 32768 + ob * a) / 32768).
  - apply Z.div_le_mono; [lia|nia].
  - rewrite Z.add_comm, Z.div_add by lia. lia.
Qed.

Lemma scale_le : forall x y, 0 <= x -> 0 <= y <= ONE -> 0 <= x * y / ONE <= x.
Proof. intros. onez. destruct (div_bounds (x * y)); nia. Qed.

(** sharing: oa*a/K + ob*a/K <= a when oa + ob <= K *)
Lemma split_le : forall oa ob a, 0 <= oa -> 0 <= ob -> oa + ob <= ONE -> 0 <= a ->
  oa * a / ONE + ob * a / ONE <= a.
Proof.
  intros. onez. destruct (div_bounds (oa * a)); [nia|]. destruct (div_bounds (ob * a)); [nia|]. nia.
Qed.

Lemma avg_between : forall oa ob col c lo hi, 0 <= oa -> 0 <= ob -> oa + ob = ONE ->
  lo <= col <= hi -> lo <= c <= hi ->
  lo <= (oa * col + ob * c) / ONE <= hi.
Proof.
  intros. onez. assert (ob = 32768 - oa) by lia. subst ob.
  split.
  - apply Z.div_le_lower_bound; [lia|]. nia.
  - assert ((oa * col + (32768 - oa) * c) / 32768 < hi + 1); [|lia].
    apply Z.div_lt_upper_bound; [lia|]. nia.
Qed.
