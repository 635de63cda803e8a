(** More lemmas about colour sampling: from get_color to sums over the canvas. *)
From Verif Require Import Base F32 F32Proofs Blend BlendProofs Queue QueueProofs Plumb PlumbProofs Mask MaskProofs Dab DabProofs
  Sample SampleProofs SampleSpec.
From Coq Require Import Reals Lra Psatz Permutation.
From Flocq Require Import Core.Core IEEE754.BinarySingleNaN.
Local Open Scope Z_scope.

Lemma over_tile_zsum : forall f, over_tile f = zsum (fun ij => f (fst ij) (snd ij)) pixels.
Proof. reflexivity. Qed.
Lemma over_tiles_zsum : forall ts f, over_tiles ts f = zsum f ts.
Proof. reflexivity. Qed.
Lemma pixels_cells : pixels = cells 0 0 63 63. Proof. reflexivity. Qed.
Lemma in_pixels : forall i j, In (i, j) pixels <-> in_tile i j.
Proof. intros. rewrite pixels_cells, in_cells. unfold in_tile. tauto. Qed.
Lemma pixels_length : Z.of_nat (length pixels) = 4096. Proof. vm_compute. reflexivity. Qed.
Local Opaque pixels.

Lemma clamp_half : clampf fhalf f0 f1 = fhalf. Proof. apply B2SF_inj. vm_compute. reflexivity. Qed.

Lemma share_range : forall trig x y radius t i j, 0 <= share trig x y radius t i j <= 65535.
Proof.
  intros. unfold share. destruct (dab_box _ _ _) as [[[[x0 y0] x1] y1]| |]; try lia.
  destruct (_ && _); [|lia]. destruct (mask_value _ _ _ _ _ _ _ _ _ _) as [v| |] eqn:E; try lia.
  unfold mask_value, opa_u16, f_to_u16 in E. apply f_to_Z_inv in E. lia.
Qed.

Lemma share_in_tile : forall trig x y radius t i j, share trig x y radius t i j <> 0 -> in_tile i j.
Proof.
  intros trig x y radius t i j H. unfold share in H.
  destruct (dab_box _ _ _) as [[[[x0 y0] x1] y1]| |] eqn:B; try lia.
  assert (0 <= x0 /\ 0 <= y0 /\ x1 <= 63 /\ y1 <= 63) as (R1 & R2 & R3 & R4).
  { clear - B. unfold dab_box in B.
    repeat match goal with H : obind ?e _ = Ok _ |- _ => destruct e eqn:?; cbn [obind] in H; try discriminate end.
    injection B as <- <- <- <-. rewrite TILE_val. lia. }
  destruct ((x0 <=? i) && (i <=? x1) && (y0 <=? j) && (j <=? y1)) eqn:C; [|lia]. unfold in_tile.
  destruct (Z.leb_spec x0 i); [|discriminate C]. destruct (Z.leb_spec i x1); [|discriminate C].
  destruct (Z.leb_spec y0 j); [|discriminate C]. destruct (Z.leb_spec j y1); [|discriminate C]. lia.
Qed.

(** what a loop over the mask does *)
Definition counted (trig : trig_oracle) (x y radius : f32) (t : tile) : list (Z * Z) :=
  filter (fun ij => negb (share trig x y radius t (fst ij) (snd ij) =? 0)) pixels.

Lemma sample_mask_decode : forall trig x y radius t mask, sample_mask trig x y radius t = Ok mask ->
  exists l, Permutation l (counted trig x y radius t) /\
  forall S (body : S -> Z -> Z -> outcome S) s,
    mask_loop body mask 0 s =
    ofold (fun s ij => body s (4 * (64 * snd ij + fst ij)) (share trig x y radius t (fst ij) (snd ij))) l s.
Proof.
  intros trig x y radius (tx, ty) mask H. unfold sample_mask in H. cbn [fst snd] in H.
  apply obind_ok in H. destruct H as (ox & Ex & H). apply obind_ok in H. destruct H as (oy & Ey & H).
  apply int_val_inv in Ex. apply int_val_inv in Ey. destruct Ex as (-> & _). destruct Ey as (-> & _).
  change TILE with 64 in H. unfold render_dab_mask in H. rewrite clamp_half in H.
  destruct (feq fhalf f0); [discriminate H|].
  apply obind_ok in H. destruct H as ((((x0 & y0) & x1) & y1) & B & H).
  set (opa := mask_value _ _ _ _ _ _ _ _) in H.
  assert (0 <= x0 /\ 0 <= y0 /\ x1 <= 63 /\ y1 <= 63) as (R1 & R2 & R3 & R4).
  { clear - B. unfold dab_box in B.
    repeat match goal with H : obind ?e _ = Ok _ |- _ => destruct e eqn:?; cbn [obind] in H; try discriminate end.
    injection B as <- <- <- <-. rewrite TILE_val. lia. }
  assert (SV : forall i j, share trig x y radius (tx, ty) i j = box_vals opa x0 y0 x1 y1 i j).
  { intros. unfold share. cbn [fst snd]. rewrite B. reflexivity. }
  set (V := box_vals opa x0 y0 x1 y1) in *.
  assert (Vals : forall i j, x0 <= i <= x1 -> y0 <= j <= y1 -> opa i j = Ok (V i j)).
  { intros i j Hi Hj. unfold V. rewrite box_vals_in by auto.
    destruct (encode_vals _ _ _ _ _ _ H i j Hi Hj) as (v & ->). reflexivity. }
  destruct (encode_inv opa V x0 y0 x1 y1 mask Vals H) as (EM & LEN).
  exists (filter (fun xy => negb (V (fst xy) (snd xy) =? 0)) (cells x0 y0 x1 y1)). split.
  - apply NoDup_Permutation; [apply NoDup_filter, NoDup_cells|apply NoDup_filter; rewrite pixels_cells; apply NoDup_cells|].
    intros (i, j). unfold counted. rewrite !filter_In, in_cells, in_pixels. cbn [fst snd]. rewrite SV.
    split; intros (A & C); (split; [|exact C]).
    + unfold in_tile. lia.
    + destruct (Z.eqb_spec (V i j) 0) as [E|NZ]; [discriminate C|].
      destruct (Z_le_dec x0 i); [|exfalso; apply NZ; apply box_vals_out; lia].
      destruct (Z_le_dec i x1); [|exfalso; apply NZ; apply box_vals_out; lia].
      destruct (Z_le_dec y0 j); [|exfalso; apply NZ; apply box_vals_out; lia].
      destruct (Z_le_dec j y1); [|exfalso; apply NZ; apply box_vals_out; lia]. lia.
  - intros S body s. rewrite EM. rewrite <- (app_nil_r (fst _ ++ _)). rewrite decode_final; auto.
    + assert (forall l s, ofold (fun s xy => body s (4 * (64 * snd xy + fst xy)) (V (fst xy) (snd xy))) l s =
        ofold (fun s ij => body s (4 * (64 * snd ij + fst ij)) (share trig x y radius (tx, ty) (fst ij) (snd ij))) l s) as G.
      { induction l; intros; cbn [ofold]; [reflexivity|]. rewrite SV. destruct (body _ _ _); cbn [obind]; auto. }
      apply G.
    + intros i j Hi Hj. rewrite <- SV. pose proof (share_range trig x y radius (tx, ty) i j). lia.
Qed.

Lemma filter_short : forall A (g : A -> bool) l, (length (filter g l) <= length l)%nat.
Proof. induction l; cbn [filter length]; [lia|]. destruct (g a); cbn [length]; lia. Qed.

Lemma counted_tile : forall trig x y radius t l, Permutation l (counted trig x y radius t) ->
  (forall ij, In ij l -> in_tile (fst ij) (snd ij) /\ 1 <= share trig x y radius t (fst ij) (snd ij) <= 65535) /\
  Z.of_nat (length l) <= 4096.
Proof.
  intros trig x y radius t l P. split.
  - intros (i, j) I. apply (Permutation_in _ P) in I. unfold counted in I. apply filter_In in I. destruct I as (I & N).
    cbn [fst snd] in *. apply in_pixels in I. split; auto. pose proof (share_range trig x y radius t i j).
    destruct (Z.eqb_spec (share trig x y radius t i j) 0); [discriminate N|]. lia.
  - rewrite (Permutation_length P). unfold counted.
    assert (length (filter (fun ij => negb (share trig x y radius t (fst ij) (snd ij) =? 0)%Z) pixels) <= length pixels)%nat by apply filter_short.
    pose proof pixels_length. lia.
Qed.

Lemma sum_counted : forall trig x y radius t l f, Permutation l (counted trig x y radius t) ->
  (forall i j, in_tile i j -> share trig x y radius t i j = 0 -> f i j = 0) ->
  zsum (fun ij => f (fst ij) (snd ij)) l = over_tile f.
Proof.
  intros trig x y radius t l f P H. rewrite (zsum_perm _ _ _ _ P). unfold counted. rewrite zsum_filter; [reflexivity|].
  intros (i, j) I N. cbn [fst snd] in *. apply H; [apply in_pixels; auto|].
  destruct (Z.eqb_spec (share trig x y radius t i j) 0); [auto|discriminate N].
Qed.

(** the integer sums the code forms: each product is cut off *)
Definition gathered (share : tile -> Z -> Z -> Z) (mem : list Z) (c : pixel -> Z) (t : tile) : Z :=
  over_tile (fun i j => share t i j * c (pixel_at mem i j) / ONE).

Definition mem_ok (mem : list Z) : Prop := Z.of_nat (length mem) = 64 * 64 * 4 /\ Forall (fun w => 0 <= w <= 65535) mem.

Lemma legacy_tile : forall trig x y radius t mask mem s, sample_mask trig x y radius t = Ok mask -> mem_ok mem ->
  let sh := share trig x y radius in
  get_color_pixels_legacy mask mem s =
  Ok (mkSums (fadd (s_w s) (f_of_Z (over_tile (sh t)))) (fadd (s_r s) (f_of_Z (gathered sh mem pr t)))
             (fadd (s_g s) (f_of_Z (gathered sh mem pg t))) (fadd (s_b s) (f_of_Z (gathered sh mem pb t)))
             (fadd (s_a s) (f_of_Z (gathered sh mem pa t)))).
Proof.
  intros trig x y radius t mask mem s H (L & W) sh.
  destruct (sample_mask_decode _ _ _ _ _ _ H) as (l & P & D).
  destruct (counted_tile _ _ _ _ _ _ P) as (I & N).
  unfold get_color_pixels_legacy. rewrite D, (legacy_cells (share trig x y radius t) mem l 0);
    cbn [i_w i_r i_g i_b i_a]; auto; try lia.
  2:{ intros ij Iij. destruct (I ij Iij). split; auto. lia. }
  cbn [obind i_w i_r i_g i_b i_a].
  assert (forall c, zsum (part (share trig x y radius t) mem c) l = gathered sh mem c t) as G.
  { intros c. unfold gathered. rewrite <- (sum_counted trig x y radius t l _ P); [reflexivity|].
    intros i j T Z. unfold sh. rewrite Z. reflexivity. }
  rewrite !G. rewrite (sum_counted trig x y radius t l (share trig x y radius t) P) by auto.
  rewrite !Z.add_0_l. reflexivity.
Qed.

(** bounds on these sums *)
Lemma over_tile_bound : forall f M, (forall i j, in_tile i j -> 0 <= f i j <= M) -> 0 <= over_tile f <= 4096 * M.
Proof.
  intros f M H. rewrite over_tile_zsum. split.
  - apply zsum_nonneg. intros (i, j) I. apply in_pixels in I. apply H. auto.
  - assert (zsum (fun ij => f (fst ij) (snd ij)) pixels <= zsum (fun _ => M) pixels) as E.
    { apply zsum_le. intros (i, j) I. apply in_pixels in I. apply H. auto. }
    rewrite zsum_const, pixels_length in E. lia.
Qed.
Lemma weight_small : forall trig x y radius t, 0 <= over_tile (share trig x y radius t) <= 2 ^ 32.
Proof.
  intros. destruct (over_tile_bound (share trig x y radius t) 65535); [intros; apply share_range|]. lia.
Qed.
Lemma pix_word : forall mem i j (c : pixel -> Z), mem_ok mem -> in_tile i j -> In c [pr; pg; pb; pa] ->
  0 <= c (pixel_at mem i j) <= 65535.
Proof.
  intros mem i j c (L & W) T I. destruct (pixel_words mem i j L W T) as (A & B & C & D).
  destruct I as [<-|[<-|[<-|[<-|[]]]]]; auto.
Qed.
Lemma gathered_small : forall trig x y radius mem c t, mem_ok mem -> In c [pr; pg; pb; pa] ->
  0 <= gathered (share trig x y radius) mem c t <= 2 ^ 32.
Proof.
  intros trig x y radius mem c t M I. unfold gathered.
  destruct (over_tile_bound (fun i j => share trig x y radius t i j * c (pixel_at mem i j) / ONE) 131068).
  - intros i j T. apply ch_bound; [apply share_range|]. apply pix_word; auto.
  - lia.
Qed.

(** the float sums after all tiles *)
Lemma fold_legacy : forall trig fastpow rand x y radius paint interval rate seen s n s' n',
  flt paint f0 = true -> Forall (fun tm => mem_ok (snd tm)) seen ->
  ofold (sample_tile trig fastpow rand x y radius paint interval rate) seen (s, n) = Ok (s', n') ->
  let sh := share trig x y radius in
  let add l s := fold_left (fun s z => fadd s (f_of_Z z)) l s in
  s' = mkSums (add (map (fun tm => over_tile (sh (fst tm))) seen) (s_w s))
              (add (map (fun tm => gathered sh (snd tm) pr (fst tm)) seen) (s_r s))
              (add (map (fun tm => gathered sh (snd tm) pg (fst tm)) seen) (s_g s))
              (add (map (fun tm => gathered sh (snd tm) pb (fst tm)) seen) (s_b s))
              (add (map (fun tm => gathered sh (snd tm) pa (fst tm)) seen) (s_a s)).
Proof.
  intros trig fastpow rand x y radius paint interval rate seen. induction seen as [|(t, mem) seen IH]; intros s n s' n' HP HM H sh add.
  - cbn [ofold] in H. injection H as <- _. destruct s; reflexivity.
  - inversion HM as [|? ? Hm HM']; subst. cbn [ofold] in H. apply obind_ok in H. destruct H as ((s1 & n1) & E & H).
    unfold sample_tile in E. cbn [fst snd] in E. apply obind_ok in E. destruct E as (mask & Em & E).
    unfold get_color_pixels_accumulate in E. rewrite HP in E.
    rewrite (legacy_tile trig x y radius t mask mem s Em Hm) in E. cbn [obind] in E. injection E as <- <-.
    rewrite (IH _ _ _ _ HP HM' H). reflexivity.
Qed.

(** ** What is read *)
Lemma read_row_final : forall Op T (micro : tile -> Op -> list (T -> outcome T)) canw canr row s seen s' seen',
  wf (sf_q s) -> NoDup row -> read_row Op T micro canw canr row s seen = Ok (s', seen') ->
  wf (sf_q s') /\ (forall t, ~ In t row -> sf_pix s' t = sf_pix s t) /\
  seen' = seen ++ map (fun t => (t, sf_pix s' t)) (up_to_refusal canr row).
Proof.
  induction row as [|t0 row IH]; intros s seen s' seen' W ND H; cbn [read_row] in H.
  - injection H as <- <-. cbn [up_to_refusal map]. rewrite app_nil_r. auto.
  - apply obind_ok in H. destruct H as (s1 & E1 & H). inversion ND as [|? ? N0 ND']; subst.
    destruct (process_tile_view Op T micro canw s t0 s1 W E1) as (W1 & _ & _ & _ & O1). cbn [up_to_refusal].
    destruct (canr t0) eqn:C.
    + destruct (IH _ _ _ _ W1 ND' H) as (W' & O' & ->). split; auto. split.
      * intros t N. rewrite O' by (intros X; apply N; right; auto). apply O1. intros ->. apply N. left; auto.
      * cbn [map]. rewrite <- app_assoc. rewrite (O' t0 N0). reflexivity.
    + injection H as <- <-. split; auto. split; [|cbn [map]; rewrite app_nil_r; auto].
      intros t N. apply O1. intros ->. apply N. left; auto.
Qed.

Lemma up_to_in : forall can row t, In t (up_to_refusal can row) -> In t row.
Proof.
  induction row; intros t H; [auto|]. cbn [up_to_refusal] in H. destruct (can a); [|destruct H].
  destruct H as [->|H]; [left; auto|right; auto].
Qed.

Lemma NoDup_app_parts : forall A (l1 l2 : list A), NoDup (l1 ++ l2) -> NoDup l1 /\ NoDup l2 /\ forall a, In a l1 -> ~ In a l2.
Proof.
  induction l1; intros l2 H; cbn [app] in *.
  - split; [constructor|]. split; auto.
  - inversion H as [|? ? N ND]; subst. destruct (IHl1 _ ND) as (A1 & A2 & A3). split; [|split].
    + constructor; auto. intros X. apply N. apply in_or_app; auto.
    + auto.
    + intros b [<-|I] X; [apply N; apply in_or_app; auto|]. eapply A3; eauto.
Qed.

Lemma read_final : forall Op T (micro : tile -> Op -> list (T -> outcome T)) canw canr rows s s' seen,
  wf (sf_q s) -> NoDup (concat rows) -> read Op T micro canw canr rows s = Ok (s', seen) ->
  seen = map (fun t => (t, sf_pix s' t)) (flat_map (up_to_refusal canr) rows).
Proof.
  intros Op T micro canw canr rows s s' seen W ND H. unfold read in H.
  assert (forall rows s seen s' seen', wf (sf_q s) -> NoDup (concat rows) ->
    ofold (fun a row => read_row Op T micro canw canr row (fst a) (snd a)) rows (s, seen) = Ok (s', seen') ->
    (forall t, ~ In t (concat rows) -> sf_pix s' t = sf_pix s t) /\
    seen' = seen ++ map (fun t => (t, sf_pix s' t)) (flat_map (up_to_refusal canr) rows)) as G.
  { clear. induction rows as [|row rows IH]; intros s seen s' seen' W ND H; cbn [ofold] in H.
    - injection H as <- <-. cbn [flat_map map]. rewrite app_nil_r. auto.
    - apply obind_ok in H. destruct H as ((s1 & seen1) & E1 & H). cbn [fst snd] in E1. cbn [concat] in ND.
      destruct (NoDup_app_parts _ _ _ ND) as (N1 & N2 & N3).
      destruct (read_row_final _ _ _ _ _ _ _ _ _ _ W N1 E1) as (W1 & O1 & ->).
      destruct (IH _ _ _ _ W1 N2 H) as (O2 & ->). split.
      + intros t N. cbn [concat] in N. rewrite O2, O1; auto; intros X; apply N; apply in_or_app; auto.
      + cbn [flat_map]. rewrite map_app, <- app_assoc. f_equal. f_equal. apply map_ext_in.
        intros t I. f_equal. symmetry. apply O2. apply N3. eapply up_to_in; eauto. }
  destruct (G _ _ _ _ _ W ND H) as (_ & E). exact E.
Qed.

Lemma sample_rows_nodup : forall x y radius rows, sample_rows x y radius = Ok rows -> NoDup (concat rows).
Proof.
  intros x y radius rows H. unfold sample_rows in H.
  apply obind_ok in H. destruct H as (tx1 & _ & H). apply obind_ok in H. destruct H as (tx2 & _ & H).
  apply obind_ok in H. destruct H as (ty1 & _ & H). apply obind_ok in H. destruct H as (ty2 & _ & H). injection H as <-.
  rewrite <- flat_map_concat_map. apply NoDup_flat_map_pairs; apply NoDup_zrange.
Qed.

(** ** Quotients of float sums *)
Definition rho : R := ((1 + / 16777216) / (1 - / 16777216))%R.
Lemma slack_rho : forall n, slack n = (rho ^ n)%R. Proof. reflexivity. Qed.
Lemma rho_u : rho = ((1 + u24) / (1 - u24))%R. Proof. reflexivity. Qed.
Lemma rho_ge : (1 + u24 <= rho /\ 1 <= rho /\ / rho <= 1 - u24 /\ 0 < rho /\ 0 < / rho)%R.
Proof.
  assert (1 + u24 <= rho)%R as A.
  { unfold rho. fold u24. apply Rmult_le_reg_r with (1 - u24)%R; [unfold u24; lra|].
    unfold Rdiv. rewrite Rmult_assoc, Rinv_l by (unfold u24; lra). unfold u24. lra. }
  assert (0 < rho)%R as P by (pose proof u24_lt; lra).
  split; auto. split; [pose proof u24_lt; lra|]. split; [|split; auto using Rinv_0_lt_compat].
  apply Rmult_le_reg_l with rho; auto. rewrite Rinv_r by lra.
  replace (rho * (1 - u24))%R with (1 + u24)%R; [pose proof u24_lt; lra|].
  unfold rho. fold u24. field. unfold u24. lra.
Qed.

Definition near (n : nat) (x X : R) : Prop := (X / rho ^ n <= x <= X * rho ^ n)%R.

Lemma rho_pow : forall n, (1 <= rho ^ n)%R.
Proof. intros. apply pow_R1_Rle. apply rho_ge. Qed.

Lemma near_round : forall n x X, (0 <= X)%R -> near n x X -> (x = 0 \/ bpow radix2 (-126) <= x)%R -> near (S n) (rnd32 x) X.
Proof.
  intros n x X HX (A & B) C. pose proof (rho_pow n) as Q. destruct rho_ge as (G1 & G2 & G3 & G4 & G5). unfold near. cbn [pow].
  assert (0 <= X / rho ^ n)%R as P. { unfold Rdiv. apply Rmult_le_pos; auto. left. apply Rinv_0_lt_compat. lra. }
  assert (X / (rho * rho ^ n) = X / rho ^ n * / rho)%R as -> by (field; split; lra).
  replace (X * (rho * rho ^ n))%R with (X * rho ^ n * rho)%R by ring.
  destruct C as [->|C].
  - rewrite rnd32_0. split.
    + assert (X / rho ^ n = 0)%R as -> by lra. lra.
    + apply Rmult_le_pos; [|lra]. apply Rmult_le_pos; lra.
  - destruct (rnd32_rel_pos x C) as (E1 & E2). pose proof (bpow_gt_0 radix2 (-126)). split.
    + eapply Rle_trans; [|exact E1]. apply Rmult_le_compat; auto. lra.
    + eapply Rle_trans; [exact E2|]. apply Rmult_le_compat; auto; pose proof u24_lt; lra.
Qed.

(** the quotient of two sums of the same length *)
Lemma near_quot : forall k p q P Q, (0 < Q -> 0 <= P -> 0 < q ->
  P * (1 - u24) ^ k <= p <= P * (1 + u24) ^ k -> Q * (1 - u24) ^ k <= q <= Q * (1 + u24) ^ k -> near k (p / q) (P / Q))%R.
Proof.
  intros k p q P Q HQ HP Hq (A1 & A2) (B1 & B2). unfold near.
  assert (0 < 1 - u24)%R as U1 by (pose proof u24_lt; lra). assert (0 < 1 + u24)%R as U2 by (pose proof u24_lt; lra).
  pose proof (pow_lt _ k U1) as V1. pose proof (pow_lt _ k U2) as V2.
  assert (rho ^ k = (1 + u24) ^ k / (1 - u24) ^ k)%R as ->.
  { rewrite rho_u. unfold Rdiv. rewrite Rpow_mult_distr, pow_inv. reflexivity. }
  set (a := ((1 - u24) ^ k)%R) in *. set (b := ((1 + u24) ^ k)%R) in *.
  replace (P / Q / (b / a))%R with (P * a * / (Q * b))%R by (field; repeat split; lra).
  replace (P / Q * (b / a))%R with (P * b * / (Q * a))%R by (field; split; lra).
  unfold Rdiv. split; (apply Rmult_le_compat; [| | |]).
  - apply Rmult_le_pos; lra.
  - left. apply Rinv_0_lt_compat. apply Rmult_lt_0_compat; lra.
  - lra.
  - apply Rinv_le_contravar; lra.
  - apply Rle_trans with (P * a)%R; [apply Rmult_le_pos; lra|lra].
  - left. apply Rinv_0_lt_compat. lra.
  - lra.
  - apply Rinv_le_contravar; [apply Rmult_lt_0_compat; lra|lra].
Qed.

Lemma near_mul_unit : forall n x X e, (0 <= X)%R -> near n x X -> (/ rho <= e <= rho)%R -> near (S n) (x * e) X.
Proof.
  intros n x X e HX (A & B) (C & D). pose proof (rho_pow n) as Q. destruct rho_ge as (G1 & G2 & G3 & G4 & G5). unfold near. cbn [pow].
  assert (0 <= X / rho ^ n)%R as P. { unfold Rdiv. apply Rmult_le_pos; auto. left. apply Rinv_0_lt_compat. lra. }
  assert (X / (rho * rho ^ n) = X / rho ^ n * / rho)%R as -> by (field; split; lra).
  replace (X * (rho * rho ^ n))%R with (X * rho ^ n * rho)%R by ring.
  split; apply Rmult_le_compat; lra.
Qed.

Lemma clamp01_min : forall x : f32, fin x -> (0 <= b2r x)%R ->
  fin (clampf x f0 f1) /\ b2r (clampf x f0 f1) = Rmin 1 (b2r x).
Proof.
  intros x F P. destruct f1_val as (V1 & F1). destruct f0_val as (V0 & F0). unfold clampf.
  rewrite (flt_spec f1 x), (flt_spec x f0), V1, V0 by auto.
  destruct (Rlt_bool_spec 1 (b2r x)).
  - rewrite V1. split; auto. rewrite Rmin_left; lra.
  - destruct (Rlt_bool_spec (b2r x) 0); [lra|]. split; auto. rewrite Rmin_right; lra.
Qed.

Lemma bpow57 : forall p q : R, (p = 0 \/ 1 <= p)%R -> (p <= IZR (2 ^ 57))%R -> (1 <= q <= IZR (2 ^ 57))%R ->
  (p / q <= IZR (2 ^ 57) /\ (p = 0 \/ bpow radix2 (-57) <= p / q))%R.
Proof.
  intros p q C Hp Hq. split.
  - apply Rle_trans with (p * 1)%R; [|lra]. unfold Rdiv. apply Rmult_le_compat_l; [lra|].
    rewrite <- Rinv_1. apply Rinv_le_contravar; lra.
  - destruct C as [->|C]; [auto|right].
    replace (bpow radix2 (-57)) with (1 * / IZR (2 ^ 57))%R.
    + unfold Rdiv. apply Rmult_le_compat; try lra. apply Rinv_le_contravar; lra.
    + rewrite <- bpow_Z by lia. rewrite Rmult_1_l, <- bpow_opp. reflexivity.
Qed.

Lemma Rle_pow2 : forall a b, (a <= b)%Z -> (bpow radix2 a <= bpow radix2 b)%R.
Proof. intros. apply bpow_le. auto. Qed.

(** one divided sum *)
Lemma quot_sum : forall lp lq, small_ints lp -> small_ints lq -> length lp = length lq -> (0 < b2r (facc lq))%R ->
  let p := facc lp in let q := facc lq in
  fin (fdiv p q) /\ (0 <= b2r (fdiv p q) <= IZR (2 ^ 57))%R /\ b2r (fdiv p q) = rnd32 (b2r p / b2r q) /\
  (b2r p = 0 \/ 1 <= b2r p)%R /\ (b2r p = 0 -> b2r (fdiv p q) = 0)%R /\
  (b2r p <> 0 -> bpow radix2 (-57) <= b2r (fdiv p q))%R /\ (1 <= b2r q <= IZR (2 ^ 57))%R /\ 0 < zsum (fun z => z) lq /\
  near (S (length lp)) (b2r p / b2r q) (IZR (zsum (fun z => z) lp) / IZR (zsum (fun z => z) lq)).
Proof.
  intros lp lq Hp Hq L Pq p q. destruct (facc_ok lp Hp) as (Fp & Bp & Ep & Op). destruct (facc_ok lq Hq) as (Fq & Bq & Eq & Oq).
  fold p in Fp, Bp, Ep, Op. fold q in Fq, Bq, Eq, Oq, Pq.
  assert (0 <= zsum (fun z => z) lp /\ 0 <= zsum (fun z => z) lq) as (NP & NQ).
  { split; apply zsum_nonneg; intros a I; [unfold small_ints in Hp; rewrite Forall_forall in Hp; specialize (Hp a I); lia|
      unfold small_ints in Hq; rewrite Forall_forall in Hq; specialize (Hq a I); lia]. }
  assert (zsum (fun z => z) lq <> 0) as NZ. { intros Z. rewrite Z in Eq. rewrite !Rmult_0_l in Eq. lra. }
  assert (b2r p = 0 \/ 1 <= b2r p)%R as C.
  { destruct (Z.eq_dec (zsum (fun z => z) lp) 0) as [Z|N]; [left|right; auto]. rewrite Z, !Rmult_0_l in Ep. lra. }
  specialize (Oq NZ).
  destruct (bpow57 (b2r p) (b2r q) C) as (Q1 & Q2); [apply Bp|lra|].
  assert (0 <= b2r p / b2r q)%R as Q0. { unfold Rdiv. apply Rmult_le_pos; [lra|]. left. apply Rinv_0_lt_compat. lra. }
  destruct (fdiv_spec p q Fp) as (V & F); [lra|rewrite Rabs_pos_eq by auto; pose proof bpow127_big;
    assert (IZR (2 ^ 57) <= 1267650600228229401496703205376)%R by (apply IZR_le; lia); lra|].
  split; auto. rewrite V. split; [|split; [auto|split; [auto|split; [|split; [|split; [lra|split; [lia|]]]]]]].
  - split; [apply rnd32_ge_r; [apply rep32_0|auto]|].
    apply rnd32_le_r; auto. rewrite <- bpow_Z by lia. apply rep32_bpow. lia.
  - intros ->. unfold Rdiv. rewrite Rmult_0_l. apply rnd32_0.
  - intros N. destruct Q2 as [|Q2]; [contradiction|]. apply rnd32_ge_r; auto. apply rep32_bpow. lia.
  - apply near_quot; auto; try lra.
    + apply IZR_lt. lia.
    + apply IZR_le. lia.
    + rewrite L. exact Eq.
Qed.

Lemma round_ratio : forall x, (bpow radix2 (-126) <= x)%R -> (1 - u24 <= rnd32 x / x <= 1 + u24)%R.
Proof.
  intros x H. pose proof (bpow_gt_0 radix2 (-126)). destruct (rnd32_rel_pos x H) as (A & B).
  split; apply Rmult_le_reg_r with x; try lra; unfold Rdiv; rewrite Rmult_assoc, Rinv_l by lra; lra.
Qed.

Lemma colour_quot : forall l lw la n, small_ints l -> small_ints lw -> small_ints la ->
  length l = n -> length lw = n -> length la = n -> (0 < b2r (facc lw))%R ->
  (0 < b2r (fdiv (facc la) (facc lw)))%R ->
  let x := fdiv (fdiv (facc l) (facc lw)) (fdiv (facc la) (facc lw)) in
  fin x /\ (0 <= b2r x)%R /\
  near (n + 3) (b2r x) (IZR (zsum (fun z => z) l) / IZR (zsum (fun z => z) la)).
Proof.
  intros l lw la n Hl Hw Ha Ll Lw La Pw Pa x.
  destruct (quot_sum l lw Hl Hw ltac:(congruence) Pw) as (F1 & B1 & V1 & C1 & Z1 & G1 & Bw & NW & _).
  destruct (quot_sum la lw Ha Hw ltac:(congruence) Pw) as (F2 & B2 & V2 & C2 & Z2 & G2 & _ & _ & _).
  destruct (facc_ok l Hl) as (Fl & Bl & El & Ol). destruct (facc_ok la Ha) as (Fa & Ba & Ea & Oa).
  set (p := facc l) in *. set (w := facc lw) in *. set (q := facc la) in *.
  assert (b2r q <> 0%R) as NQ by (intros Z; rewrite (Z2 Z) in Pa; lra).
  assert (1 <= b2r q)%R as Q1 by (destruct C2; [contradiction|auto]).
  specialize (G2 NQ).
  assert (0 <= zsum (fun z => z) l /\ 0 <= zsum (fun z => z) la) as (NP & NA).
  { split; apply zsum_nonneg; intros i I; [unfold small_ints in Hl; rewrite Forall_forall in Hl; specialize (Hl i I); lia|
      unfold small_ints in Ha; rewrite Forall_forall in Ha; specialize (Ha i I); lia]. }
  assert (zsum (fun z => z) la <> 0) as NZ. { intros Z. rewrite Z, !Rmult_0_l in Ea. lra. }
  assert (0 < IZR (zsum (fun z => z) la))%R as PA by (apply IZR_lt; lia).
  assert (0 <= IZR (zsum (fun z => z) l))%R as PL by (apply IZR_le; lia).
  assert (0 <= IZR (zsum (fun z => z) l) / IZR (zsum (fun z => z) la))%R as PQ.
  { unfold Rdiv. apply Rmult_le_pos; auto. left. apply Rinv_0_lt_compat. auto. }
  assert (near (S n) (b2r p / b2r q) (IZR (zsum (fun z => z) l) / IZR (zsum (fun z => z) la))) as NQT.
  { apply near_quot; auto; try lra; [rewrite <- Ll; exact El|rewrite <- La; exact Ea]. }
  assert (bpow radix2 57 = IZR (2 ^ 57)) as B57 by (apply bpow_Z; lia).
  pose proof (bpow_gt_0 radix2 (-57)) as PB.
  destruct C1 as [Zp|Np].
  - (* the channel is zero everywhere *)
    specialize (Z1 Zp).
    destruct (fdiv_spec (fdiv p w) (fdiv q w) F1) as (V & F); [lra|rewrite Z1; unfold Rdiv; rewrite Rmult_0_l, Rabs_R0; apply bpow_ge_0|].
    unfold x. split; auto. rewrite V, Z1. unfold Rdiv at 1. rewrite Rmult_0_l, rnd32_0. split; [lra|].
    replace (n + 3)%nat with (S (S (S n))) by lia. rewrite Zp in NQT. unfold Rdiv at 1 in NQT. rewrite Rmult_0_l in NQT.
    assert (E0 : rnd32 0 = 0%R) by apply rnd32_0. unfold Rdiv at 1. rewrite Rmult_0_l, E0.
    rewrite <- E0. apply near_round; auto. rewrite <- E0. apply near_round; auto.
  - specialize (G1 ltac:(lra)).
    assert (0 < b2r (fdiv p w))%R as P1 by lra.
    assert (bpow radix2 (-114) <= b2r (fdiv p w) / b2r (fdiv q w) <= bpow radix2 114)%R as (X1 & X2).
    { replace (bpow radix2 (-114)) with (bpow radix2 (-57) * / bpow radix2 57)%R.
      2:{ rewrite <- bpow_opp, <- bpow_plus. reflexivity. }
      replace (bpow radix2 114) with (bpow radix2 57 * / bpow radix2 (-57))%R.
      2:{ rewrite <- bpow_opp, <- bpow_plus. reflexivity. }
      unfold Rdiv. split; apply Rmult_le_compat; try lra.
      - left. apply Rinv_0_lt_compat. apply bpow_gt_0.
      - apply Rinv_le_contravar; lra.
      - left. apply Rinv_0_lt_compat. lra.
      - apply Rinv_le_contravar; lra. }
    pose proof (bpow_gt_0 radix2 (-114)).
    destruct (fdiv_spec (fdiv p w) (fdiv q w) F1) as (V & F); [lra|rewrite Rabs_pos_eq by lra; eapply Rle_trans; [exact X2|apply bpow_le; lia]|].
    unfold x. split; auto. rewrite V. split.
    { apply rnd32_ge_r; [apply rep32_0|lra]. }
    replace (n + 3)%nat with (S (S (S n))) by lia. apply near_round; auto.
    2:{ right. eapply Rle_trans; [|exact X1]. apply bpow_le. lia. }
    assert (0 < b2r p / b2r w)%R as D1 by (apply Rdiv_lt_0_compat; lra).
    assert (0 < b2r q / b2r w)%R as D2 by (apply Rdiv_lt_0_compat; lra).
    destruct (bpow57 (b2r p) (b2r w)) as (_ & [S1|S1]); [right; auto|apply Bl|lra|lra|].
    destruct (bpow57 (b2r q) (b2r w)) as (_ & [S2|S2]); [right; auto|apply Ba|lra|lra|].
    destruct (round_ratio (b2r p / b2r w)) as (R1 & R2); [eapply Rle_trans; [|exact S1]; apply bpow_le; lia|].
    destruct (round_ratio (b2r q / b2r w)) as (R3 & R4); [eapply Rle_trans; [|exact S2]; apply bpow_le; lia|].
    rewrite <- V1 in R1, R2. rewrite <- V2 in R3, R4.
    set (e1 := (b2r (fdiv p w) / (b2r p / b2r w))%R) in *. set (e2 := (b2r (fdiv q w) / (b2r q / b2r w))%R) in *.
    replace (b2r (fdiv p w) / b2r (fdiv q w))%R with (b2r p / b2r q * (e1 / e2))%R.
    2:{ unfold e1, e2. field. repeat split; lra. }
    apply near_mul_unit; auto. pose proof u24_lt.
    rewrite rho_u. replace (/ ((1 + u24) / (1 - u24)))%R with ((1 - u24) * / (1 + u24))%R by (field; split; lra).
    unfold Rdiv. split; apply Rmult_le_compat; try lra.
    + left. apply Rinv_0_lt_compat. lra.
    + apply Rinv_le_contravar; lra.
    + left. apply Rinv_0_lt_compat. lra.
    + apply Rinv_le_contravar; lra.
Qed.

(** the result of legacy sampling *)
Lemma finish_legacy : forall paint lw lr lg lb la n r g b a, flt paint f0 = true ->
  small_ints lw -> small_ints lr -> small_ints lg -> small_ints lb -> small_ints la ->
  length lw = n -> length lr = n -> length lg = n -> length lb = n -> length la = n ->
  finish paint (mkSums (facc lw) (facc lr) (facc lg) (facc lb) (facc la)) = Ok (r, g, b, a) ->
  let T l := IZR (zsum (fun z => z) l) in
  0 < zsum (fun z => z) lw /\
  fin a /\ (exists q, near (n + 2) q (T la / T lw) /\ b2r a = Rmin 1 q /\ (0 <= q)%R) /\
  (forall l out, In (l, out) [(lr, r); (lg, g); (lb, b)] ->
     fin out /\ (0 <= b2r out <= 1)%R /\
     (b2r a <> 0%R -> exists q, near (n + 3) q (T l / T la) /\ b2r out = Rmin 1 q)) /\
  (b2r a = 0%R -> r = f0 /\ g = f1 /\ b = f0).
Proof.
  intros paint lw lr lg lb la n r g b a HP Hw Hr Hg Hb Ha Lw Lr Lg Lb La H T. unfold finish in H. cbn [s_w s_r s_g s_b s_a] in H. rewrite HP in H.
  destruct f0_val as (V0 & F0). destruct f1_val as (V1 & F1).
  destruct (facc_ok lw Hw) as (Fw & Bw & _).
  rewrite (flt_spec f0 (facc lw) F0 Fw) in H. rewrite V0 in H. destruct (Rlt_bool_spec 0 (b2r (facc lw))) as [Pw|]; [|discriminate H].
  destruct (quot_sum la lw Ha Hw ltac:(congruence) Pw) as (Fa & Ba & Va & Ca & Za & Ga & _ & NW & NA).
  rewrite (flt_spec f0 _ F0 Fa), V0 in H.
  destruct (clamp01_min _ Fa) as (Fc & Vc); [lra|].
  assert (NW0 : (0 < T lw)%R) by (unfold T; apply IZR_lt; auto).
  assert (0 <= zsum (fun z => z) la) as NA0.
  { apply zsum_nonneg. intros i I. unfold small_ints in Ha. rewrite Forall_forall in Ha. specialize (Ha i I). lia. }
  assert (0 <= T la / T lw)%R as PQ.
  { unfold Rdiv. apply Rmult_le_pos; [unfold T; apply IZR_le; lia|]. left. apply Rinv_0_lt_compat. auto. }
  assert (near (n + 2) (b2r (fdiv (facc la) (facc lw))) (T la / T lw)) as NQ.
  { replace (n + 2)%nat with (S (S n)) by lia. rewrite Va. apply near_round; auto; [rewrite <- La; exact NA|].
    destruct Ca as [Zc|Nc]; [left; rewrite Zc; unfold Rdiv; apply Rmult_0_l|right].
    destruct (facc_ok la Ha) as (_ & Bla & _).
    destruct (quot_sum la lw Ha Hw ltac:(congruence) Pw) as (_ & _ & _ & _ & _ & _ & Bq & _).
    destruct (bpow57 (b2r (facc la)) (b2r (facc lw))) as (_ & [S2|S2]); [right; auto|apply Bla|lra|lra|].
    eapply Rle_trans; [|exact S2]. apply bpow_le. lia. }
  destruct (Rlt_bool_spec 0 (b2r (fdiv (facc la) (facc lw)))) as [Pa|Na].
  - assert (EA : clampf (fdiv (facc la) (facc lw)) f0 f1 = a) by congruence.
    assert (ER : clampf (fdiv (fdiv (facc lr) (facc lw)) (fdiv (facc la) (facc lw))) f0 f1 = r) by congruence.
    assert (EG : clampf (fdiv (fdiv (facc lg) (facc lw)) (fdiv (facc la) (facc lw))) f0 f1 = g) by congruence.
    assert (EB : clampf (fdiv (fdiv (facc lb) (facc lw)) (fdiv (facc la) (facc lw))) f0 f1 = b) by congruence.
    split; [lia|]. rewrite EA in Fc, Vc. split; auto. split; [eexists; split; [exact NQ|split; auto; lra]|]. split.
    + assert (forall l out, small_ints l -> length l = n -> clampf (fdiv (fdiv (facc l) (facc lw)) (fdiv (facc la) (facc lw))) f0 f1 = out ->
        fin out /\ (0 <= b2r out <= 1)%R /\ (b2r a <> 0%R -> exists q, near (n + 3) q (T l / T la) /\ b2r out = Rmin 1 q)) as G.
      { intros l out Hl Ll <-. destruct (colour_quot l lw la n Hl Hw Ha Ll Lw La Pw Pa) as (Fx & Px & Nx).
        destruct (clamp01_min _ Fx Px) as (Fo & Vo). split; auto. split; [|eauto].
        rewrite Vo. split; [apply Rmin_glb; lra|apply Rmin_l]. }
      intros l out [I|[I|[I|[]]]]; injection I as <- <-; apply G; auto.
    + intros Z. rewrite Vc in Z. unfold Rmin in Z. destruct (Rle_dec 1 _); lra.
  - assert (EA : clampf (fdiv (facc la) (facc lw)) f0 f1 = a) by congruence.
    assert (ER : r = f0) by congruence. assert (EG : g = f1) by congruence. assert (EB : b = f0) by congruence. clear H. subst r g b.
    split; [lia|]. rewrite EA in Fc, Vc. split; auto. split; [eexists; split; [exact NQ|split; auto; lra]|]. split; [|auto].
    intros l out I. split; [destruct I as [I|[I|[I|[]]]]; injection I as _ <-; auto|].
    split; [destruct I as [I|[I|[I|[]]]]; injection I as _ <-; rewrite ?V0, ?V1; lra|].
    intros N. exfalso. apply N. rewrite Vc. rewrite Rmin_right; lra.
Qed.
