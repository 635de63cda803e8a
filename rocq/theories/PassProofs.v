(** Proofs about the symmetry pass of draw_dab: which dabs, which rectangles. *)
From Verif Require Import Base F32 F32Proofs Arith Rect P_Rect Symmetry SymmetryProofs BoxProofs.
From Coq Require Import Reals Lra ZifyBool.
Local Open Scope Z_scope.

Lemma loop_list : forall X (F : list X -> Z -> outcome (list X)) (P : Z -> X -> Prop) n lo acc,
  (forall i acc, lo <= i < lo + Z.of_nat n -> exists e, F acc i = Ok (acc ++ [e]) /\ P i e) ->
  exists l, ofold F (zrange lo n) acc = Ok (acc ++ l) /\ Forall2 P (zrange lo n) l.
Proof.
  induction n as [|n IH]; intros lo acc H.
  - exists []. split; [cbn; rewrite app_nil_r; reflexivity|constructor].
  - rewrite zrange_cons. cbn [ofold]. destruct (H lo acc) as (e & -> & Pe); [lia|]. cbn [obind].
    destruct (IH (lo + 1) (acc ++ [e])) as (l & E & L).
    { intros i acc' Hi. apply H. lia. }
    exists (e :: l). rewrite E, <- app_assoc. split; [reflexivity|]. constructor; auto.
Qed.

Lemma Forall2_impl : forall X Y (P Q : X -> Y -> Prop) l l', (forall x y, P x y -> Q x y) -> Forall2 P l l' -> Forall2 Q l l'.
Proof. induction 2; constructor; auto. Qed.

Section Pass.
  Context {A : arith} (G : trigops A).

  (** index of the transform and dab angle, in drawing order *)
  Definition rotations_of (s : symstate A) (angle : A) : list (Z * A) :=
    map (fun i => (i - 1, nsub angle (nmul (nofZ i) (turn_part_deg G (s_lines s))))) (zrange 1 (Z.to_nat (s_lines s - 1))).
  Definition mirrors_of (s : symstate A) (angle : A) : list (Z * A) :=
    map (fun i => (s_lines s - 1 + i, nsub (nsub (nmul (nofZ (-2)) (s_angle s)) angle) (nmul (nofZ i) (turn_part_deg G (s_lines s)))))
        (zrange 0 (Z.to_nat (s_lines s))).
  Definition order (s : symstate A) (angle : A) : list (Z * A) :=
    match s_type s with
    | Vertical => [(0, mirror_deg G (nadd (nofZ 90) (s_angle s)) angle)]
    | Horizontal => [(0, mirror_deg G (s_angle s) angle)]
    | VertHorz => [(0, mirror_deg G (s_angle s) angle); (1, angle); (2, mirror_deg G (s_angle s) angle)]
    | Rotational => rotations_of s angle
    | Snowflake => mirrors_of s angle ++ rotations_of s angle
    | OtherType _ => []
    end.
  Definition is_dab (s : symstate A) (x y : A) (boxes : Z) (ka : Z * A) (e : extra) : Prop :=
    (e_x e, e_y e) = transform_point (expected G s (fst ka)) x y /\ e_angle e = snd ka /\ 0 <= e_box e < boxes.

  Lemma extra_ok : forall (l : list (option (mat A))) s k x y angle box boxes, 0 <= k ->
    nth_error l (Z.to_nat k) = Some (Some (expected G s k)) -> 0 <= box < boxes ->
    exists e, extra_dab (Some l) k x y angle box = Ok e /\ is_dab s x y boxes (k, angle) e.
  Proof.
    intros l s k x y angle box boxes Hk Hl Hb. unfold extra_dab. rewrite (get_mat_ok _ _ _ Hk Hl). cbn [obind].
    destruct (transform_point (expected G s k) x y) as [x' y'] eqn:E. eexists. split; [reflexivity|].
    unfold is_dab. cbn [e_x e_y e_angle e_box fst snd]. rewrite E. auto.
  Qed.

  Lemma Forall2_map_l : forall X Y W (f : X -> Y) (P : Y -> W -> Prop) l l', Forall2 (fun x w => P (f x) w) l l' -> Forall2 P (map f l) l'.
  Proof. induction 1; cbn; constructor; auto. Qed.

  Lemma rotation_dabs_ok : forall k (d : symdata A) l boxes x y angle, sane (sd_cur d) -> sd_mats d = Some l -> 1 <= k <= 2 ->
    2 <= s_lines (sd_cur d) ->
    (forall i, 0 <= i < s_lines (sd_cur d) - 1 -> nth_error l (Z.to_nat i) = Some (Some (expected G (sd_cur d) i))) ->
    1 <= boxes <= 8388608 ->
    exists l', rotation_dabs G k d boxes x y angle = Ok l' /\
      Forall2 (is_dab (sd_cur d) x y (Z.min boxes (s_lines (sd_cur d)))) (rotations_of (sd_cur d) angle) l'.
  Proof.
    intros k d l boxes x y angle (S1 & S2) El Hk Hl Hm Hb. unfold rotation_dabs. unfold MAXLINES in *. set (s := sd_cur d) in *.
    rewrite upto_small by lia.
    destruct (per_rot_ok k (s_lines s) boxes) as (Fp & Vp & _); [nia|lia|].
    destruct (loop_list _ (fun l i =>
             let* box := f_to_int (box_slot (per_bbox_rot k (s_lines s) boxes) boxes i) in
             let* e := extra_dab (sd_mats d) (i - 1) x y (nsub angle (nmul (nofZ i) (turn_part_deg G (s_lines s)))) box in
             Ok (l ++ [e])) (fun i e => is_dab s x y (Z.min boxes (s_lines s)) (i - 1, nsub angle (nmul (nofZ i) (turn_part_deg G (s_lines s)))) e)
             (Z.to_nat (s_lines s - 1)) 1 []) as (l' & E & L).
    { intros i acc Hi. destruct (box_index_rot (per_bbox_rot k (s_lines s) boxes) boxes i) as (z & -> & Hz & Hzi & _); auto; [lia|lia|].
      cbn [obind]. rewrite El.
      destruct (extra_ok l s (i - 1) x y (nsub angle (nmul (nofZ i) (turn_part_deg G (s_lines s)))) z (Z.min boxes (s_lines s))) as (e & -> & He);
        [lia|apply Hm; lia|lia|]. cbn [obind]. exists e. auto. }
    exists l'. split; [exact E|]. unfold rotations_of. apply Forall2_map_l. exact L.
  Qed.

  Lemma snowflake_dabs_ok : forall (d : symdata A) l boxes x y angle, sane (sd_cur d) -> sd_mats d = Some l ->
    2 <= s_lines (sd_cur d) ->
    (forall i, 0 <= i < 2 * s_lines (sd_cur d) - 1 -> nth_error l (Z.to_nat i) = Some (Some (expected G (sd_cur d) i))) ->
    2 * s_lines (sd_cur d) <= boxes <= 8388608 ->
    exists l', snowflake_dabs G d boxes x y angle = Ok l' /\
      Forall2 (is_dab (sd_cur d) x y (2 * s_lines (sd_cur d))) (mirrors_of (sd_cur d) angle) l'.
  Proof.
    intros d l boxes x y angle (S1 & S2) El Hl Hm Hb. unfold snowflake_dabs. unfold MAXLINES in *. set (s := sd_cur d) in *.
    assert (s_lines s <= boxes / 2) as Hdiv by (apply Z.div_le_lower_bound; lia).
    destruct (Z.ltb_spec (boxes / 2) (s_lines s)); [lia|].
    rewrite int_val_ok by (unfold INT_MIN, INT_MAX; lia). cbn [obind].
    rewrite fl_small by lia. rewrite int_val_ok by (unfold INT_MIN, INT_MAX; lia). cbn [obind].
    rewrite upto_small by lia. rewrite Z.sub_0_r.
    destruct (per_snow_ok (s_lines s) boxes) as (Fp & Vp & _); [lia|lia|].
    destruct (loop_list _ (fun l i =>
             let* box := f_to_int (fadd (f_of_Z (s_lines s)) (box_slot (per_bbox_snow (s_lines s) boxes) boxes i)) in
             let* e := extra_dab (sd_mats d) (s_lines s - 1 + i) x y
                         (nsub (nsub (nmul (nofZ (-2)) (s_angle s)) angle) (nmul (nofZ i) (turn_part_deg G (s_lines s)))) box in
             Ok (l ++ [e])) (fun i e => is_dab s x y (2 * s_lines s)
                (s_lines s - 1 + i, nsub (nsub (nmul (nofZ (-2)) (s_angle s)) angle) (nmul (nofZ i) (turn_part_deg G (s_lines s)))) e)
             (Z.to_nat (s_lines s)) 0 []) as (l' & E & L).
    { intros i acc Hi. destruct (box_index_snow (s_lines s) (per_bbox_snow (s_lines s) boxes) boxes i) as (z & -> & Hz & Hzi & _); auto; [lia|lia|lia|].
      cbn [obind]. rewrite El.
      edestruct (extra_ok l s (s_lines s - 1 + i) x y) as (e & -> & He); [lia|apply Hm; lia| |].
      2: { cbn [obind]. exists e. split; [reflexivity|exact He]. } lia. }
    exists l'. split; [exact E|]. unfold mirrors_of. apply Forall2_map_l. exact L.
  Qed.

  (** enough rectangles for the current symmetry: what begin_atomic provides
      unless the allocation of the rectangles fails *)
  Definition enough_boxes (s : symstate A) (boxes : Z) : Prop :=
    4 <= boxes <= 8388608 /\ (s_type s = Snowflake -> 2 * s_lines s <= boxes).

  Theorem pass_ok : forall (d : symdata A) boxes x y angle, wfs G d -> enough_boxes (sd_cur d) boxes ->
    exists l used, symmetry_pass G d boxes x y angle = Ok (l, used) /\ 1 <= used <= boxes /\
      Forall2 (is_dab (sd_cur d) x y used) (if sd_active d && negb (sd_num d =? 0) then order (sd_cur d) angle else []) l.
  Proof.
    intros d boxes x y angle [Wc Wp Wn Wr] (Hb & Hs). unfold symmetry_pass.
    destruct (sd_active d); cbn [andb]; [|exists [], 1; repeat split; [lia|lia|constructor]].
    destruct (Z.eqb_spec (sd_num d) 0) as [N|N]; cbn [negb]; [exists [], 1; repeat split; [lia|lia|constructor]|].
    destruct Wr as [Wr|(l & El & Hl & Hc & Hm)]; [contradiction|]. set (s := sd_cur d) in *.
    destruct Wc as (S1 & S2). unfold MAXLINES in *. unfold order, count in *. destruct (s_type s) eqn:Et.
    - rewrite El. destruct (extra_ok l s 0 x y (mirror_deg G (nadd (nofZ 90) (s_angle s)) angle) 1 2) as (e & -> & He); [lia|apply Hm; lia|lia|].
      cbn [obind]. exists [e], 2. repeat split; [lia|lia|]. repeat constructor; auto; apply He.
    - rewrite El. destruct (extra_ok l s 0 x y (mirror_deg G (s_angle s) angle) 1 2) as (e & -> & He); [lia|apply Hm; lia|lia|].
      cbn [obind]. exists [e], 2. repeat split; [lia|lia|]. repeat constructor; auto; apply He.
    - rewrite El. destruct (extra_ok l s 0 x y (mirror_deg G (s_angle s) angle) 1 4) as (e & -> & He); [lia|apply Hm; lia|lia|]. cbn [obind].
      destruct (extra_ok l s 1 x y angle 2 4) as (e1 & -> & He1); [lia|apply Hm; lia|lia|]. cbn [obind].
      destruct (extra_ok l s 2 x y (mirror_deg G (s_angle s) angle) 3 4) as (e2 & -> & He2); [lia|apply Hm; lia|lia|]. cbn [obind].
      exists [e; e1; e2], 4. repeat split; [lia|lia|]. constructor; [exact He|]. constructor; [exact He1|]. constructor; [exact He2|constructor].
    - destruct (rotation_dabs_ok 1 d l boxes x y angle) as (l' & -> & L); fold s; auto; [split; fold s; unfold MAXLINES; auto; rewrite Et; auto|lia|lia|].
      cbn [obind]. eexists l', _. split; [reflexivity|]. fold s in L. split; [lia|].
      replace (Z.min boxes (Z.max (s_lines s) 1)) with (Z.min boxes (s_lines s)) by lia. exact L.
    - destruct (snowflake_dabs_ok d l boxes x y angle) as (l1 & -> & L1); fold s; auto; [split; fold s; unfold MAXLINES; auto; rewrite Et; auto|specialize (Hs eq_refl); lia|].
      cbn [obind].
      destruct (rotation_dabs_ok 2 d l boxes x y angle) as (l2 & -> & L2); fold s; auto; [split; fold s; unfold MAXLINES; auto; rewrite Et; auto|lia|intros; apply Hm; lia|lia|].
      cbn [obind]. eexists (l1 ++ l2), _. split; [reflexivity|]. fold s in L1, L2. specialize (Hs eq_refl).
      rewrite fl_small by lia. split; [lia|].
      replace (Z.min boxes (Z.max (s_lines s) (Z.min boxes (s_lines s * 2)))) with (2 * s_lines s) by lia.
      apply Forall2_app; auto. eapply Forall2_impl; [|exact L2]. intros a b (X1 & X2 & X3). split; auto. split; auto. lia.
    - exists [], 1. repeat split; [lia|lia|constructor].
  Qed.
End Pass.
