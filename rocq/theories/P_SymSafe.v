(** Property C17: drawing with symmetry stays inside its arrays.  For every
    arithmetic, in particular bit-exactly for float with any sin and cos. *)
From Verif Require Import Base F32 F32Proofs Arith Rect Symmetry SymmetryProofs BoxProofs PassProofs.
From Coq Require Import Reals Lra ZifyBool.
Local Open Scope Z_scope.

(** The rectangle array of the surface: [b_num] is the field num_bboxes, [b_cap]
    the number of rectangles that fit into the memory. *)
Record boxarr := mkBoxes { b_num : Z; b_cap : Z }.

(* prepare_bounding_boxes, mypaint-tiled-surface.c 50-84: the allocation part
   ([ok]: does malloc succeed; a negative byte count never does) and the bound of
   the clearing loop.  The contents of the rectangles are not modelled here. *)
Definition prepare_boxes {A : arith} (ok : bool) (d : symdata A) (b : boxarr) : outcome boxarr :=
  let s := sd_cur d in
  let* desired := int_val (fl (s_lines s * (match s_type s with Snowflake => 2 | _ => 1 end))) in
  if b_num b <? desired then
    let* num := int_val (desired + 10) in
    let bytes := to_int (num * 16) in
    if ok && (0 <=? bytes) then Ok (mkBoxes num (bytes / 16)) else Ok b
  else Ok b.

(** A history of a surface: symmetry settings, begin_atomic (do the allocations
    of transforms and of rectangles succeed), accepted dabs. *)
Inductive event {A : arith} :=
| SetSymmetry (active : bool) (cx cy angle : A) (ty : symtype) (lines : Z)
| BeginAtomic (transforms_ok rects_ok : bool)
| Dab (x y angle : A).
Arguments event : clear implicits.

Section Safe.
  Context {A : arith} (G : trigops A).

  (* writing the rectangle of one dab, update_dirty_bbox(&self->bboxes[bbox_index], ..), 684 *)
  Definition touch (b : boxarr) (i : Z) : outcome unit := if (0 <=? i) && (i <? b_cap b) then Ok tt else UB.

  Definition step (st : symdata A * boxarr) (e : event A) : outcome (symdata A * boxarr) :=
    let (d, b) := st in
    match e with
    | SetSymmetry active cx cy angle ty lines => Ok (set_pending d active cx cy angle ty lines, b)
    | BeginAtomic ok1 ok2 =>
        let* d := update_symmetry_state G ok1 d in
        let* b := prepare_boxes ok2 d b in Ok (d, b)
    | Dab x y angle =>
        let* _ := touch b 0 in
        let* r := symmetry_pass G d (b_num b) x y angle in
        let* _ := ofold (fun _ e => touch b (e_box e)) (fst r) tt in
        Ok (d, b)
    end.
  (** a new surface (32 rectangles; [ok0]: does the allocation of the transforms
      succeed) and a history *)
  Definition run (ok0 : bool) (evs : list (event A)) : outcome (symdata A * boxarr) :=
    let* d := default_symmetry_data G ok0 in
    ofold step evs (d, mkBoxes 32 32).

  Definition four_million (e : event A) : Prop := match e with SetSymmetry _ _ _ _ _ n => n <= 4000000 | _ => True end.
  Definition rects_allocated (e : event A) : Prop := match e with BeginAtomic _ ok => ok = true | _ => True end.
  Definition not_snowflake (e : event A) : Prop := match e with SetSymmetry _ _ _ _ ty _ => ty <> Snowflake | _ => True end.

  Lemma fl_lines : forall s : symstate A, sane s -> s_lines s <= 4000000 -> 
    fl (s_lines s * (match s_type s with Snowflake => 2 | _ => 1 end)) = s_lines s * (match s_type s with Snowflake => 2 | _ => 1 end).
  Proof. intros s (H & _) H2. apply fl_small. unfold MAXLINES in *. destruct (s_type s); lia. Qed.

  Record inv (allocated : Prop) (d : symdata A) (b : boxarr) : Prop := {
    i_wf : wfs G d;
    i_cur : s_lines (sd_cur d) <= 4000000;
    i_pend : s_lines (sd_pend d) <= 4000000;
    i_cap : b_cap b = b_num b;
    i_num : 32 <= b_num b <= 8388608;
    i_snow : s_type (sd_cur d) = Snowflake -> 2 * s_lines (sd_cur d) <= b_num b;
    i_kind : allocated \/ (s_type (sd_cur d) <> Snowflake /\ s_type (sd_pend d) <> Snowflake) }.

  Lemma prepare_ok : forall ok (d : symdata A) b, sane (sd_cur d) -> s_lines (sd_cur d) <= 4000000 ->
    b_cap b = b_num b -> 32 <= b_num b <= 8388608 ->
    exists b', prepare_boxes ok d b = Ok b' /\ b_cap b' = b_num b' /\ b_num b <= b_num b' <= 8388608 /\
      (ok = true -> s_type (sd_cur d) = Snowflake -> 2 * s_lines (sd_cur d) <= b_num b').
  Proof.
    intros ok d b Hs Hl Hc Hn. unfold prepare_boxes. rewrite fl_lines by auto. set (k := s_lines (sd_cur d) * _).
    assert (0 <= k <= 8000000) as Hk by (unfold k; destruct Hs as (Hs & _); unfold MAXLINES in *; destruct (s_type (sd_cur d)); lia).
    rewrite int_val_ok by (unfold INT_MIN, INT_MAX; lia). cbn [obind].
    assert (s_type (sd_cur d) = Snowflake -> k = 2 * s_lines (sd_cur d)) as Ks by (intros E; unfold k; rewrite E; lia). clearbody k.
    destruct (Z.ltb_spec (b_num b) k).
    - rewrite int_val_ok by (unfold INT_MIN, INT_MAX; lia). cbn [obind]. rewrite to_int_small by lia.
      destruct (Z.leb_spec 0 ((k + 10) * 16)); [|lia]. rewrite andb_true_r. destruct ok.
      + eexists. split; [reflexivity|]. cbn [b_cap b_num]. rewrite Z.div_mul by lia. split; [auto|]. split; [lia|]. intros _ E. rewrite <- Ks by auto. lia.
      + exists b. split; [auto|]. split; [auto|]. split; [lia|]. discriminate.
    - exists b. split; [auto|]. split; [auto|]. split; [lia|]. intros _ E. rewrite <- Ks by auto. lia.
  Qed.

  Lemma step_ok : forall allocated d b e, inv allocated d b -> four_million e ->
    (allocated -> rects_allocated e) -> (~ allocated -> not_snowflake e) -> (allocated \/ ~ allocated) ->
    exists d' b', step (d, b) e = Ok (d', b') /\ inv allocated d' b'.
  Proof.
    intros allocated d b e [W C P Cap N S K] F4 Fa Fn Dec. destruct e as [active cx cy angle ty lines|ok1 ok2|x y angle]; cbn [step four_million rects_allocated not_snowflake] in *.
    - eexists _, _. split; [reflexivity|]. constructor; auto.
      + apply set_pending_wf; auto. unfold MAXLINES. lia.
      + unfold set_pending. cbn [sd_pend s_lines]. rewrite fl_small by lia; lia.
      + destruct Dec as [D|D]; auto. destruct K as [K|(K1 & K2)]; auto.
    - destruct (update_ok G ok1 d W) as (d1 & -> & W1 & P1 & A1 & Cs). cbn [obind].
      assert (sd_cur d1 = sd_pend d \/ sd_cur d1 = sd_cur d) as Cc.
      { destruct Cs as [(X & _)|[(-> & _)|(_ & X & _)]]; auto. }
      assert (s_lines (sd_cur d1) <= 4000000) as L1 by (destruct Cc as [-> | ->]; auto).
      destruct (prepare_ok ok2 d1 b (w_cur G d1 W1) L1 Cap N) as (b1 & -> & Cap1 & N1 & S1). cbn [obind].
      assert (allocated \/ (s_type (sd_cur d1) <> Snowflake /\ s_type (sd_pend d1) <> Snowflake)) as K1.
      { destruct K as [K|(K & K')]; [auto|]. right. rewrite P1. split; auto. destruct Cc as [-> | ->]; auto. }
      eexists _, _. split; [reflexivity|]. constructor; auto.
      + rewrite P1. auto. + lia.
      + intros E. destruct K1 as [K1|(K1 & _)]; [|contradiction]. apply S1; auto.
    - assert (enough_boxes (sd_cur d) (b_num b)) as E by (split; [lia|auto]).
      destruct (pass_ok G d (b_num b) x y angle W E) as (l & used & -> & U & L).
      unfold touch at 1. rewrite Cap. destruct ((0 <=? 0) && (0 <? b_num b)) eqn:Z0; [|lia]. cbn [obind fst].
      assert (ofold (fun _ e => touch b (e_box e)) l tt = Ok tt) as ->.
      { revert L. generalize (if sd_active d && negb (sd_num d =? 0) then order G (sd_cur d) angle else []). clear - U Cap. intros o L.
        induction L as [|ka e o l (_ & _ & B) L IH]; auto. cbn [ofold]. unfold touch at 1. rewrite Cap.
        destruct ((0 <=? e_box e) && (e_box e <? b_num b)) eqn:Z1; [|lia]. cbn [obind]. exact IH. }
      cbn [obind]. eexists _, _. split; [reflexivity|]. constructor; auto.
  Qed.

  (** Every history of up to four million lines runs without leaving an array,
      whichever allocations of transforms fail (also the first one), provided the
      allocations of rectangles succeed or the snowflake symmetry is not used. *)
  Theorem C17_in_bounds_partial : forall ok0 evs, Forall four_million evs ->
    Forall rects_allocated evs \/ Forall not_snowflake evs ->
    exists d b, run ok0 evs = Ok (d, b) /\ b_cap b = b_num b.
  Proof.
    intros ok0 evs F4 Hk. unfold run. destruct (default_wf G ok0) as (d & E & W & A0 & P0 & C0). rewrite E. cbn [obind].
    assert (s_lines (sd_cur d) <= 4000000 /\ s_type (sd_cur d) <> Snowflake) as (L0 & T0).
    { destruct ok0.
      - destruct (C0 eq_refl) as (_ & X). rewrite X, P0. cbn. split; [lia|discriminate].
      - unfold default_symmetry_data in E. rewrite alloc_ok in E by lia. injection E as <-. cbn. split; [lia|discriminate]. }
    set (allocated := Forall rects_allocated evs).
    assert (inv allocated d (mkBoxes 32 32)) as I.
    { constructor; auto; cbn [b_num b_cap]; try lia; rewrite ?P0; cbn [s_lines s_type]; try lia.
      - contradiction. - right. split; [auto|discriminate]. }
    assert (allocated \/ ~ allocated) as Dec.
    { unfold allocated. clear. induction evs as [|e evs IH]; [left; constructor|].
      assert (rects_allocated e \/ ~ rects_allocated e) as [D|D] by (destruct e as [| ? []|]; cbn; auto).
      - destruct IH; [left; constructor; auto|right; intros X; inversion X; auto].
      - right. intros X. inversion X. auto. }
    assert (allocated -> Forall rects_allocated evs) as Fa by auto.
    assert (~ allocated -> Forall not_snowflake evs) as Fn by (intros; destruct Hk; [contradiction|auto]).
    clear Hk E W A0 P0 C0 L0 T0. clearbody allocated. revert I F4 Fa Fn. generalize (mkBoxes 32 32). revert d.
    induction evs as [|e evs IH]; intros d b I F4 Fa Fn.
    - exists d, b. split; [reflexivity|]. apply I.
    - cbn [ofold]. inversion F4; subst.
      destruct (step_ok allocated d b e I) as (d1 & b1 & -> & I1); auto.
      { intros X. specialize (Fa X). inversion Fa; auto. } { intros X. specialize (Fn X). inversion Fn; auto. }
      cbn [obind]. apply IH; auto.
      { intros X. specialize (Fa X). inversion Fa; auto. } { intros X. specialize (Fn X). inversion Fn; auto. }
  Qed.

  (** 33 snowflake lines when the allocation of rectangles fails: rectangle 32 of
      32 is written.  (The comment in prepare_bounding_boxes says that failure is
      fine.) *)
  Theorem C17_rectangle_allocation_failure_refuted : forall cx cy angle x y a : A,
    run true [SetSymmetry true cx cy angle Snowflake 33; BeginAtomic true false; Dab x y a] = UB.
  Proof.
    intros cx cy angle x y a. unfold run. destruct (default_wf G true) as (d & E & W & A0 & P0 & C0). rewrite E. cbn [obind ofold step].
    destruct (C0 eq_refl) as (N0 & E0).
    set (d1 := set_pending d true cx cy angle Snowflake 33).
    assert (wfs G d1) as W1 by (apply set_pending_wf; auto; unfold MAXLINES; lia).
    assert (sd_pend d1 = mkSym Snowflake cx cy angle 33) as P1.
    { unfold d1, set_pending. cbn [sd_pend]. rewrite fl_small by lia. reflexivity. }
    destruct (update_ok G true d1 W1) as (d2 & -> & W2 & P2 & A2 & Cs). cbn [obind].
    assert (sd_cur d2 = mkSym Snowflake cx cy angle 33 /\ sd_num d2 <> 0) as (C2 & N2).
    { destruct Cs as [(X & X2 & _)|[(-> & [X|X])|(X & _)]]; try discriminate.
      - split; [congruence|]. apply X2; auto.
      - exfalso. change (sd_cur d1) with (sd_cur d) in X. rewrite E0, P0, P1 in X. discriminate. }
    assert (prepare_boxes false d2 (mkBoxes 32 32) = Ok (mkBoxes 32 32)) as ->.
    { unfold prepare_boxes. rewrite C2. cbn [s_lines s_type]. rewrite fl_small by lia. reflexivity. }
    cbn [obind step b_num b_cap]. change (touch (mkBoxes 32 32) 0) with (Ok tt). cbn [obind b_num].
    destruct W2 as [Wc Wp Wn Wr]. destruct Wr as [Wr|(ms & Em & Hl & Hc & Hm)]; [contradiction|]. rewrite C2 in Hc, Hm. cbn [count s_type s_lines] in Hc, Hm.
    unfold symmetry_pass. rewrite A2. change (sd_active d1) with true. destruct (Z.eqb_spec (sd_num d2) 0); [contradiction|]. cbn [andb negb].
    rewrite C2. cbn [s_type s_lines].
    set (P := fun (i : Z) (e : extra (A := A)) => f_to_int (fadd (f_of_Z 16) (box_slot (per_bbox_snow 33 32) 32 i)) = Ok (e_box e)).
    assert (exists l1, snowflake_dabs G d2 32 x y a = Ok l1 /\ Forall2 P (zrange 0 33) l1) as (l1 & -> & L1).
    { unfold snowflake_dabs. rewrite C2. cbn [s_lines s_angle s_type]. change (32 / 2) with 16. change (16 <? 33) with true. cbv iota.
      rewrite int_val_ok by (unfold INT_MIN, INT_MAX; lia). cbn [obind]. rewrite fl_small by lia. rewrite int_val_ok by (unfold INT_MIN, INT_MAX; lia). cbn [obind].
      rewrite upto_small by lia. change (Z.to_nat (33 - 0)) with 33%nat.
      destruct (per_snow_ok 33 32) as (Fp & Vp & _); [lia|lia|].
      match goal with |- exists l1, ofold ?F _ _ = _ /\ _ => destruct (loop_list _ F P 33 0 []) as (l & El & L) end.
      - intros i acc Hi. destruct (box_index_snow 16 (per_bbox_snow 33 32) 32 i) as (z & Ez & _); auto; try lia.
        unfold P. rewrite Ez. cbn [obind]. rewrite Em. unfold extra_dab. assert (0 <= 33 - 1 + i < 2 * 33 - 1) as Hi2 by lia.
        rewrite (get_mat_ok _ _ _ (proj1 Hi2) (Hm _ Hi2)). cbn [obind].
        destruct (transform_point _ _ _) as [x' y']. cbn [obind]. eexists. split; reflexivity.
      - exists l. split; auto. }
    cbn [obind].
    assert (exists l2, rotation_dabs G 2 d2 32 x y a = Ok l2) as (l2 & ->).
    { destruct (rotation_dabs_ok G 2 d2 ms 32 x y a) as (l2 & El & _); rewrite ?C2; cbn [s_lines s_type]; auto; try lia.
      - split; cbn; unfold MAXLINES; lia. - intros. apply Hm. lia. - exists l2. exact El. }
    cbn [obind fst].
    assert (exists e, In e l1 /\ e_box e = 32) as (e & He & Be).
    { assert (In 32 (zrange 0 33)) as I by (apply in_zrange; lia).
      clear - L1 I. induction L1 as [|i e is es H L IH]; [destruct I|]. destruct I as [->|I].
      - exists e. split; [left; auto|]. unfold P in H. assert (f_to_int (fadd (f_of_Z 16) (box_slot (per_bbox_snow 33 32) 32 32)) = Ok 32) as X by (vm_compute; reflexivity). congruence.
      - destruct (IH I) as (e' & H1 & H2). exists e'. split; [right; auto|auto]. }
    assert (forall l, In e l -> ofold (fun _ e => touch (mkBoxes 32 32) (e_box e)) l tt = UB) as X.
    { clear - Be. intros l. induction l as [|e' l IH]; intros I; [destruct I|]. cbn [ofold]. unfold touch at 1. cbn [b_cap].
      destruct I as [->|I]; [rewrite Be; reflexivity|]. destruct ((0 <=? e_box e') && (e_box e' <? 32)); [|reflexivity]. cbn [obind]. apply IH. auto. }
    rewrite X by (apply in_or_app; auto). reflexivity.
  Qed.

  (** 119304648 rotational lines: the byte count wraps to 32 and the first
      transform is written outside the allocation although nothing failed. *)
  Theorem C17_huge_line_count_refuted : forall cx cy angle : A,
    run true [SetSymmetry true cx cy angle Rotational 119304648; BeginAtomic true true] = UB.
  Proof.
    intros cx cy angle. unfold run. destruct (default_wf G true) as (d & E & W & A0 & P0 & C0). rewrite E. cbn [obind ofold step].
    destruct (C0 eq_refl) as (N0 & E0).
    assert (sd_num d <= 16) as N1.
    { revert E. unfold default_symmetry_data. rewrite alloc_ok by lia. cbv beta iota. unfold update_symmetry_state.
      cbn [sd_changes negb orb sd_cur sd_pend states_equal symtype_eqb s_type andb num_matrices_required obind sd_num].
      change (16 <? 1) with false. cbv beta iota. cbn [negb sd_pend sd_mats].
      destruct (fill_matrices G _ _) as [[ms|]| |]; cbn [obind]; try discriminate.
      - destruct (ofold _ _ _); cbn [obind]; try discriminate. intros H. injection H as <-. cbn. lia.
      - intros H. injection H as <-. cbn. lia. }
    assert (update_symmetry_state G true (set_pending d true cx cy angle Rotational 119304648) = UB) as ->; [|reflexivity].
    unfold update_symmetry_state, set_pending. replace (fl (Z.max 2 119304648)) with 119304648 by (vm_compute; reflexivity).
    cbn [sd_changes negb orb sd_cur sd_pend]. rewrite E0, P0. cbn [states_equal symtype_eqb s_type andb num_matrices_required s_lines].
    replace (fl (119304648 - 1)) with 119304648 by (vm_compute; reflexivity).
    rewrite int_val_ok by (unfold INT_MIN, INT_MAX; lia). cbn [obind sd_num].
    destruct (Z.ltb_spec (sd_num d) 119304648); [|lia].
    unfold allocate_matrices. change (to_int (119304648 * 36)) with 32. change (0 <? 32) with true. cbn [andb]. cbv beta iota.
    cbn [negb sd_pend sd_mats sd_cur sd_changes sd_active]. change (Z.to_nat (32 / 36)) with 0%nat.
    match goal with |- context [resize ?l 0] => replace (resize l 0) with (@nil (option (mat A))) by (unfold resize; cbn [firstn app Nat.sub repeat]; reflexivity) end.
    unfold fill_matrices. cbn [s_type s_lines s_cx s_cy s_angle].
    assert (exists r, upto 1 119304648 = 1 :: r) as (r & ->).
    { unfold upto. assert (exists k, Z.to_nat (119304648 - 1) = S k) as (k & ->) by (exists (Z.to_nat (119304648 - 2)); lia).
      rewrite zrange_cons. cbn [filter]. rewrite fl_small by lia. eexists. reflexivity. }
    cbn [ofold]. reflexivity.
  Qed.

  (** the hypotheses of the theorem are met by real use *)
  Example C17_case : forall x y a : A,
    let evs := [SetSymmetry true x y a Snowflake 100; BeginAtomic false true; Dab x y a; SetSymmetry true x y a Rotational 3000000;
                BeginAtomic true true; Dab x y a] in
    Forall four_million evs /\ Forall rects_allocated evs.
  Proof. intros. unfold evs. split; repeat constructor; cbn; lia. Qed.
End Safe.

Print Assumptions C17_in_bounds_partial.
Print Assumptions C17_rectangle_allocation_failure_refuted.
Print Assumptions C17_huge_line_count_refuted.
