(** The two arithmetics of the brush model: when bucket numbers computed by the
    engine stay below the number of buckets. *)
From Verif Require Import Base F32 F32Proofs Arith Color Brush BrushProofs.
From Coq Require Import Reals Lra.
From Flocq Require Import Core.Core IEEE754.BinarySingleNaN.
Local Open Scope Z_scope.

Lemma index_ok_R : forall n, 0 < n -> index_ok (M := mixR) n.
Proof.
  intros n Hn v i. cbn [mixR to_i wid sng dbl numR nlt nofZ car]. intros H.
  unfold int_val in H. destruct (Base.in_int _); [|discriminate]. injection H as <-.
  match goal with |- context [Ztrunc ?e] => assert (0 <= e <= IZR (n - 1))%R as [B1 B2] end.
  { assert (0 <= IZR (n - 1))%R by (apply IZR_le; lia).
    destruct (Rlt_bool_spec (IZR (n - 1)) v); [lra|]. destruct (Rlt_bool_spec v 0); lra. }
  rewrite Ztrunc_floor by auto. apply Zfloor_le in B2. rewrite Zfloor_IZR in B2.
  assert (0 <= Zfloor (if Rlt_bool (IZR (n - 1)) v then IZR (n - 1) else if Rlt_bool v 0 then 0%R else v)) by (apply Zfloor_lub; auto).
  split; [assumption|]. eapply Z.le_lt_trans; [exact B2|lia].
Qed.

Lemma index_ok_64 : forall n, 0 < n <= 16777217 -> index_ok (M := mix64) n.
Proof.
  intros n Hn v i. cbn [mix64 to_i wid sng dbl num32 num64 nlt nofZ car]. intros H.
  destruct (f_of_Z_exact (n - 1)) as [Vn Fn]; [lia|]. destruct (f_of_Z_exact 0) as [V0 F0]; [lia|].
  set (c := if flt (f_of_Z (n - 1)) v then f_of_Z (n - 1) else if flt v (f_of_Z 0) then f_of_Z 0 else v) in *.
  assert (fin c) as Fc.
  { unfold d_to_int, d_to_Z in H. destruct (is_finite (d_of_f c)) eqn:Fd; [|discriminate].
    unfold fin. destruct c; auto. }
  assert (0 <= b2r c <= IZR (n - 1))%R as [B1 B2].
  { assert (0 <= IZR (n - 1))%R by (apply IZR_le; lia). revert Fc. unfold c.
    destruct (flt (f_of_Z (n - 1)) v) eqn:C1; [intros; rewrite Vn; lra|].
    destruct (flt v (f_of_Z 0)) eqn:C2; [intros; rewrite V0; lra|]. intros Fv.
    rewrite flt_spec in C1, C2 by auto. rewrite Vn in C1. rewrite V0 in C2.
    destruct (Rlt_bool_spec (IZR (n - 1)) (b2r v)); [discriminate|]. destruct (Rlt_bool_spec (b2r v) 0); [discriminate|]. lra. }
  destruct (d_of_f_exact c Fc) as [Vd Fd]. unfold d_to_int, d_to_Z in H.
  unfold fin in Fd. rewrite Fd in H. destruct (_ && _); [|discriminate]. injection H as <-.
  rewrite (trunc_spec 53 1024 emax53), Vd, Ztrunc_floor by auto.
  apply Zfloor_le in B2. rewrite Zfloor_IZR in B2. assert (0 <= Zfloor (b2r c)) by (apply Zfloor_lub; auto). lia.
Qed.
