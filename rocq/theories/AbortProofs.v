(** No assertion of the engine fails behind the sanity checks of stroke_to, if
    those of the random generator and the surface do not. *)
From Verif Require Import Base F32 Arith Color Mapping Settings Spectral Brush.
Local Open Scope Z_scope.

Lemma na_bind : forall A B (o : outcome A) (f : A -> outcome B), o <> Abort -> (forall a, f a <> Abort) -> obind o f <> Abort.
Proof. intros A B [a| |] f H1 H2; cbn; [apply H2|congruence|discriminate]. Qed.
Lemma na_ok : forall A (a : A), Ok a <> Abort. Proof. discriminate. Qed.
Lemma na_ub : forall A, @UB A <> Abort. Proof. discriminate. Qed.
Lemma na_int : forall z, int_val z <> Abort.
Proof. intros z. unfold int_val. destruct (Base.in_int z); discriminate. Qed.

Create HintDb na.
#[export] Hint Resolve na_ok na_ub na_int : na.
Ltac na := repeat first
  [ solve [auto with na]
  | apply na_bind; [|intros ?]
  | match goal with
    | |- pass ?e _ <> Abort => unfold pass
    | |- (let '(_, _) := ?e in _) <> Abort => destruct e as [? ?]
    | |- (match ?e with _ => _ end) <> Abort => destruct e
    end ].

Section NoAbort.
  Context {M : mixed} (L : mathlib M) {E : env M}.
  Context (HI : forall x : dbl M, to_i x <> Abort).
  Context (HN : forall g, e_next E g <> Abort) (HD : forall s x, e_draw E s x <> Abort) (HG : forall s x y r p, e_get E s x y r p <> Abort).
  Hint Resolve HI HN HD HG : na.

  Lemma cell_na : forall (K : arith) (l : list (option K)) i, @cell K l i <> Abort.
  Proof. intros. unfold cell. na. Qed.
  Hint Resolve cell_na : na.
  Lemma segment_na : forall K (p : control K) n i x x0 y0 x1 y1, segment p n i x x0 y0 x1 y1 <> Abort.
  Proof. induction n as [|n IH]; intros; cbn [segment]; na. Qed.
  Hint Resolve segment_na : na.
  Lemma curve_na : forall K (p : control K) x, curve_value p x <> Abort.
  Proof. intros. unfold curve_value. na. Qed.
  Hint Resolve curve_na : na.
  Lemma sum_na : forall K (ps : list (control K)) data r, sum_inputs ps data r <> Abort.
  Proof. induction ps as [|p ps IH]; intros [|x data] r; cbn [sum_inputs]; na. Qed.
  Hint Resolve sum_na : na.
  Lemma mapping_na : forall K (m : mapping K) data, mapping_calculate m data <> Abort.
  Proof. intros. unfold mapping_calculate. na. Qed.
  Hint Resolve mapping_na : na.
  Lemma calculate_na : forall ms data, calculate_all (M := M) ms data <> Abort.
  Proof. induction ms as [|m ms IH]; intros data; cbn [calculate_all]; na. Qed.
  Hint Resolve calculate_na : na.
  Lemma update_na : forall (b : brush E) p, update_states L b p <> Abort.
  Proof. intros. unfold update_states. na. Qed.
  Lemma read9_na : forall l off, read9 (M := M) l off <> Abort.
  Proof.
    intros. unfold read9. destruct (off <? 0); [na|]. generalize (firstn 9 (skipn (Z.to_nat off) l)) as q. clear. intros q.
    do 10 (destruct q as [|? q]; [na|]). na.
  Qed.
  Lemma write9_na : forall l off k, write9 (M := M) l off k <> Abort.
  Proof. intros. unfold write9. na. Qed.
  Hint Resolve update_na read9_na write9_na : na.
  Lemma read_place_na : forall (b : brush E) pl, read_place b pl <> Abort.
  Proof. intros b []; unfold read_place; na. Qed.
  Lemma write_place_na : forall (b : brush E) pl k, write_place b pl k <> Abort.
  Proof. intros b [] k; unfold write_place; na. Qed.
  Lemma fetch_na : forall b : brush E, fetch_bucket L b <> Abort.
  Proof. intros b. unfold fetch_bucket. cbv zeta. na. Qed.
  Lemma round_na : forall x, round_i (M := M) x <> Abort.
  Proof. intros. unfold round_i. na. Qed.
  Lemma gauss_na : forall g, rand_gauss (E := E) g <> Abort.
  Proof. intros. unfold rand_gauss. cbv zeta. na. Qed.
  Lemma hsv_na : forall c, hsv_to_rgb M c <> Abort.
  Proof. intros [[h s] v]. unfold hsv_to_rgb. cbv zeta. na. Qed.
  Hint Resolve read_place_na write_place_na fetch_na round_na gauss_na hsv_na : na.
  Lemma update_smudge_na : forall (b : brush E) w k sl px py r lg pt, update_smudge_color L b w k sl px py r lg pt <> Abort.
  Proof. intros. unfold update_smudge_color. cbv zeta. apply na_bind; [|intros (((?, ?), ?), ?); na]. na. Qed.
  Lemma position_na : forall b : brush E, dab_position L b <> Abort.
  Proof. intros. unfold dab_position. cbv zeta. na. Qed.
  Lemma size_na : forall (b : brush E) o, dab_size L b o <> Abort.
  Proof. intros. unfold dab_size. cbv zeta. na. Qed.
  Lemma color_na : forall (b : brush E) c l, dab_color L b c l <> Abort.
  Proof. intros. unfold dab_color. cbv zeta. na. Qed.
  Hint Resolve update_smudge_na position_na size_na color_na : na.
  Lemma prepare_na : forall (b : brush E) w l, prepare_and_draw_dab L b w l <> Abort.
  Proof. intros. unfold prepare_and_draw_dab. cbv zeta. na. Qed.
  Hint Resolve prepare_na : na.
  Lemma one_dab_na : forall g (p : progress E), one_dab L g p <> Abort.
  Proof. intros. unfold one_dab. cbv zeta. destruct (if nlt _ _ then _ else _). apply na_bind; [na|intros ?]. na. Qed.
  Hint Resolve one_dab_na : na.
  Lemma dabs_na : forall n g (p : progress E), dabs L n g p <> Abort.
  Proof. induction n as [|n IH]; intros; cbn [dabs]; na. Qed.
  Hint Resolve dabs_na : na.
  Lemma paint_to_na : forall n (b : brush E) w g t, paint_to L n b w g t <> Abort.
  Proof. intros. unfold paint_to, paint_dabs. destruct (count_dabs_to _ _ _ _ _). apply na_bind; [na|]. intros [p|]; [|na]. unfold paint_rest. na. Qed.
  Lemma track_na : forall (b : brush E) x y t, track L b x y t <> Abort.
  Proof. intros. unfold track. cbv zeta. na. Qed.
  Lemma clear_na : forall l a n, clear (M := M) l a n <> Abort.
  Proof. intros. unfold clear. na. Qed.
  Hint Resolve paint_to_na track_na clear_na : na.
  Lemma reset_na : forall b : brush E, brush_reset b <> Abort.
  Proof. intros. unfold brush_reset. cbv zeta. na. Qed.
  Hint Resolve reset_na : na.
  Lemma do_reset_na : forall (b : brush E) x y p, do_reset b x y p <> Abort.
  Proof. intros. unfold do_reset. apply na_bind; [na|intros ?]. apply na_bind; [na|intros [? ?]]. na. Qed.
  Hint Resolve do_reset_na : na.
  Lemma stroke_rest_na : forall n (b : brush E) w t e, stroke_rest L n b w t e <> Abort.
  Proof. intros. unfold stroke_rest. destruct (skip_input _ _ _ _ _) as [b1 [dt|]]; [|na]. apply na_bind; [na|]. intros [[x y] b2]. na. Qed.
End NoAbort.
