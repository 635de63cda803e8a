(** The rectangle array during an atomic operation and its output. *)
From Verif Require Import Base F32 F32Proofs Queue QueueProofs Blend BlendProofs Mask MaskProofs OpaProofs RrProofs
  MaskFloatProofs FarProofs Rect Arith Symmetry Plumb PlumbProofs KeepProofs Dab DabProofs HistoryProofs SurfProofs
  SymmetryProofs PassProofs.
From Coq Require Import Reals Lra ZifyBool.
From Flocq Require Import Core.Core IEEE754.BinarySingleNaN.
From Verif Require P_SymSafe.
From Verif Require Import P_Mask P_Rect RoiProofs.
Local Open Scope Z_scope.

Definition box (l : list rect) (i : Z) : rect := nth (Z.to_nat i) l rect0.
Definition all_proper (l : list rect) : Prop := forall i, 0 <= i -> proper (box l i).
Definition grown (a b : list rect) : Prop := length b = length a /\ forall i, 0 <= i -> sub (box a i) (box b i).

Lemma grown_refl : forall a, grown a a. Proof. split; auto using sub_refl. Qed.
Lemma grown_trans : forall a b c, grown a b -> grown b c -> grown a c.
Proof. intros a b c (L1 & S1) (L2 & S2). split; [congruence|]. intros i Hi. eapply sub_trans; eauto. Qed.
Lemma covers_sub : forall r r' o, sub r r' -> covers r o -> covers r' o.
Proof. unfold covers, sub. auto. Qed.
Lemma rect0_proper : proper rect0. Proof. left. reflexivity. Qed.
Lemma at_index_inv : forall A (l : list A) i a, at_index l i = Ok a -> 0 <= i < Z.of_nat (length l) /\ forall d, nth (Z.to_nat i) l d = a.
Proof.
  intros A l i a H. unfold at_index in H. destruct (Z.ltb_spec i 0); [discriminate|].
  destruct (nth_error l (Z.to_nat i)) eqn:E; [|discriminate]. injection H as ->.
  assert (Z.to_nat i < length l)%nat by (apply nth_error_Some; congruence).
  split; [lia|]. intros d. apply nth_error_nth. exact E.
Qed.
Lemma box_upd : forall l i r j, 0 <= i < Z.of_nat (length l) -> 0 <= j ->
  box (upd l (Z.to_nat i) r) j = if i =? j then r else box l j.
Proof.
  intros l i r j Hi Hj. unfold box. rewrite nth_upd. destruct (Nat.ltb_spec (Z.to_nat i) (length l)); [|lia]. rewrite andb_true_r.
  destruct (Nat.eqb_spec (Z.to_nat i) (Z.to_nat j)), (Z.eqb_spec i j); auto; lia.
Qed.

Lemma bbox_any : forall r x y rad r', proper r -> update_dirty_bbox r x y rad = Ok r' -> solid r' /\ sub r r'.
Proof.
  intros r x y rad r' P H. unfold update_dirty_bbox in H. inv_bind H. destruct v as (x0, x1). inv_bind H. destruct v as (y0, y1).
  inv_bind H. destruct (point_spec _ _ _ _ P E1) as (S1 & _ & U1). destruct (point_spec _ _ _ _ (solid_proper _ S1) H) as (S2 & _ & U2).
  split; auto. eapply sub_trans; eauto.
Qed.

Section Array.
  Variables (trig : trig_oracle) (mix : mix_oracle) (G : trigops num32).

  (** [d] is covered by rectangle [i] *)
  Definition dab_in (l : list rect) (d : dab) (i : Z) : Prop :=
    forall o, prepare_op d = Ok (Some o) -> op_ok trig o -> covers (box l i) o.

  Lemma dab_in_grown : forall l l' d i, 0 <= i -> grown l l' -> dab_in l d i -> dab_in l' d i.
  Proof. intros l l' d i Hi (_ & S) H o P O. eapply covers_sub; [apply S; auto|]. auto. Qed.

  Lemma internal_boxes : forall ts d idx ts' m, draw_dab_internal ts d idx = Ok (ts', m) -> all_proper (ts_boxes ts) ->
    all_proper (ts_boxes ts') /\ grown (ts_boxes ts) (ts_boxes ts') /\
    (0 <= idx -> dab_in (ts_boxes ts') d idx).
  Proof.
    intros ts d idx ts' m H A. destruct (internal_spec _ _ _ _ _ H) as (_ & _ & _ & [(_ & P & -> & _)|(_ & o & tiles & P & _ & _ & _ & r & r' & E1 & E2 & ->)]).
    - split; auto. split; [apply grown_refl|]. intros _ o P'. congruence.
    - destruct (at_index_inv _ _ _ _ E1) as (Hi & Hr). assert (box (ts_boxes ts) idx = r) as B by apply Hr.
      assert (proper r) as Pr by (rewrite <- B; apply A; lia).
      destruct (bbox_any _ _ _ _ _ Pr E2) as (S & U). split; [|split].
      + intros i H0. rewrite box_upd by auto. destruct (Z.eqb_spec idx i); auto. apply solid_proper; auto.
      + split; [apply upd_length|]. intros i H0. rewrite box_upd by auto. destruct (Z.eqb_spec idx i); [subst; auto|apply sub_refl].
      + intros _ o' P' O'. assert (o' = o) by congruence. subst. rewrite box_upd, Z.eqb_refl by lia.
        destruct (bbox_spec trig o _ _ O' Pr E2) as (_ & _ & C). exact C.
  Qed.

  Lemma extras_boxes : forall d l ts ts',
    ofold (fun ts (e : @extra num32) =>
             let* r := draw_dab_internal ts (moved d (e_x e) (e_y e) (e_angle e)) (e_box e) in Ok (fst r)) l ts = Ok ts' ->
    all_proper (ts_boxes ts) -> (forall e, In e l -> 0 <= e_box e) ->
    all_proper (ts_boxes ts') /\ grown (ts_boxes ts) (ts_boxes ts') /\ ts_num ts' = ts_num ts /\ ts_sym ts' = ts_sym ts /\
    forall e, In e l -> dab_in (ts_boxes ts') (moved d (e_x e) (e_y e) (e_angle e)) (e_box e).
  Proof.
    intros d. induction l as [|e l IH]; intros ts ts' H A B; cbn [ofold] in H.
    - injection H as <-. split; auto. split; [apply grown_refl|]. split; auto. split; auto. intros e [].
    - inv_bind H. inv_bind E. destruct v0 as (ts1, m). cbn [fst] in E. injection E as <-.
      destruct (internal_spec _ _ _ _ _ E0) as (N & _ & S & _).
      destruct (internal_boxes _ _ _ _ _ E0 A) as (A1 & G1 & D1).
      destruct (IH _ _ H A1) as (A2 & G2 & N2 & S2 & D2); [intros; apply B; right; auto|].
      split; auto. split; [eapply grown_trans; eauto|]. split; [congruence|]. split; [congruence|].
      intros e' [<-|I]; [|auto]. assert (0 <= e_box e) by (apply B; left; auto). eapply dab_in_grown; eauto.
  Qed.

  (** how many rectangles an accepted dab counts *)
  Definition used_of (d : symdata num32) (n : Z) : Z :=
    if sd_active d && negb (sd_num d =? 0) then
      match s_type (sd_cur d) with
      | Vertical | Horizontal => 2
      | VertHorz => 4
      | Snowflake => Z.min n (Z.max (s_lines (sd_cur d)) (Z.min n (fl (s_lines (sd_cur d) * 2))))
      | Rotational => Z.min n (Z.max (s_lines (sd_cur d)) 1)
      | OtherType _ => 1
      end
    else 1.
  Lemma pass_used : forall d n x y a l u, symmetry_pass G d n x y a = Ok (l, u) -> u = used_of d n.
  Proof.
    intros d n x y a l u H. unfold symmetry_pass, used_of in *. destruct (_ && _); [|congruence].
    destruct (s_type (sd_cur d)); repeat (inv_bind H); congruence.
  Qed.

  Notation sinv all ts := (P_SymSafe.inv G all (ts_sym ts) (P_SymSafe.mkBoxes (ts_num ts) (Z.of_nat (length (ts_boxes ts))))).

  Lemma sinv_enough : forall all ts, sinv all ts -> enough_boxes (sd_cur (ts_sym ts)) (ts_num ts).
  Proof. intros all ts [W C P Cap N S K]. cbn in *. split; [lia|auto]. Qed.

  Lemma used_range : forall all ts, sinv all ts -> 1 <= used_of (ts_sym ts) (ts_num ts) <= ts_num ts.
  Proof.
    intros all ts I. destruct (pass_ok G (ts_sym ts) (ts_num ts) (f0 : num32) (f0 : num32) (f0 : num32)) as (l & u & E & U & _).
    - apply I. - eapply sinv_enough; eauto. - rewrite <- (pass_used _ _ _ _ _ _ _ E). auto.
  Qed.

  Lemma draw_boxes : forall all ts d ts' m, sinv all ts -> draw_dab G ts d = Ok (ts', m) -> all_proper (ts_boxes ts) ->
    all_proper (ts_boxes ts') /\ grown (ts_boxes ts) (ts_boxes ts') /\ ts_num ts' = ts_num ts /\ ts_sym ts' = ts_sym ts /\
    (m = false -> copies_of G ts d = [] /\ prepare_op d = Ok None /\ ts_dirtied ts' = 0) /\
    (m = true -> ts_dirtied ts' = used_of (ts_sym ts) (ts_num ts) /\
       forall d', In d' (d :: copies_of G ts d) -> exists i, 0 <= i < used_of (ts_sym ts) (ts_num ts) /\ dab_in (ts_boxes ts') d' i).
  Proof.
    intros all ts d ts' m I H A. pose proof (used_range _ _ I) as U. unfold draw_dab in H. inv_bind H. destruct v as (ts1, modified).
    destruct (internal_spec _ _ _ _ _ E) as (N1 & _ & S1 & C).
    destruct (internal_boxes _ _ _ _ _ E A) as (A1 & G1 & D1).
    destruct C as [(-> & P & -> & _)|(-> & o & tiles & P & _)].
    - injection H as <- <-. cbn [set_dirtied ts_boxes ts_num ts_sym ts_dirtied]. split; auto. split; auto. split; auto. split; auto.
      split; [|discriminate]. intros _. split; [unfold copies_of; rewrite P; reflexivity|]. split; [auto|lia].
    - inv_bind H. destruct v as (l, used). inv_bind H. injection H as <- <-. rewrite N1, S1 in E0.
      destruct (pass_ok G (ts_sym ts) (ts_num ts) (d_x d : num32) (d_y d) (d_angle d)) as (l' & u' & E' & U' & F); [apply I|eapply sinv_enough; eauto|].
      rewrite E0 in E'. injection E' as <- <-. pose proof (pass_used _ _ _ _ _ _ _ E0) as Eu. 
      assert (forall e, In e l -> 0 <= e_box e < used) as B.
      { clear - F. intros e I. induction F as [|ka e' o l' (_ & _ & B) F IH]; [destruct I|]. destruct I as [<-|I]; auto. }
      destruct (extras_boxes _ _ _ _ E1 A1) as (A2 & G2 & N2 & S2 & D2); [intros; apply B; auto|].
      cbn [set_dirtied ts_boxes ts_num ts_sym ts_dirtied]. split; auto. split; [eapply grown_trans; eauto|].
      split; [congruence|]. split; [congruence|]. split; [discriminate|]. intros _.
      split; [rewrite N2, N1; lia|]. intros d' [<-|Id].
      + exists 0. split; [lia|]. eapply dab_in_grown; [lia|exact G2|]. apply D1. lia.
      + unfold copies_of in Id. rewrite P, E0 in Id. apply in_map_iff in Id. destruct Id as (e & <- & Ie).
        exists (e_box e). split; [rewrite <- Eu; apply B; auto|]. apply D2. auto.
  Qed.

  (** *** The invariant of the array along a history *)
  Definition few_lines (e : sev) : Prop := match e with SSym _ _ _ _ _ n => n <= 4000000 | _ => True end.
  Definition boxes_allocated (e : sev) : Prop := match e with SBegin _ ok => ok = true | _ => True end.
  Definition no_snowflake (e : sev) : Prop := match e with SSym _ _ _ _ ty _ => ty <> Snowflake | _ => True end.

  Lemma clear_proper : forall n l l', ofold (fun bs i => let* _ := at_index bs i in Ok (upd bs (Z.to_nat i) rect0)) (zrange 0 n) l = Ok l' ->
    length l' = length l /\ (all_proper l -> all_proper l').
  Proof.
    intros n. generalize 0. induction n as [|n IH]; intros z l l' H.
    - cbn in H. injection H as <-. auto.
    - rewrite zrange_cons in H. cbn [ofold] in H. inv_bind H. inv_bind E. injection E as <-.
      destruct (IH _ _ _ H) as (L & P). rewrite upd_length in L. split; auto. intros A. apply P. intros i Hi.
      destruct (at_index_inv _ _ _ _ E0) as (Hz & _). rewrite box_upd by auto. destruct (_ =? _); auto. apply rect0_proper.
  Qed.

  Lemma box_repeat : forall n i, box (repeat rect0 n) i = rect0.
  Proof.
    intros n i. unfold box. destruct (Nat.lt_ge_cases (Z.to_nat i) n).
    - apply nth_repeat.
    - apply nth_overflow. rewrite repeat_length. auto.
  Qed.

  Lemma prepare_match : forall ok ts ts', prepare_bounding_boxes ok ts = Ok ts' ->
    all_proper (ts_boxes ts) ->
    ts_sym ts' = ts_sym ts /\ ts_sf ts' = ts_sf ts /\ ts_dirtied ts' = 0 /\ all_proper (ts_boxes ts') /\
    P_SymSafe.prepare_boxes ok (ts_sym ts) (P_SymSafe.mkBoxes (ts_num ts) (Z.of_nat (length (ts_boxes ts)))) =
      Ok (P_SymSafe.mkBoxes (ts_num ts') (Z.of_nat (length (ts_boxes ts')))).
  Proof.
    intros ok ts ts' H A. unfold prepare_bounding_boxes in H. inv_bind H. inv_bind H. destruct v0 as ((bs, n), dd).
    inv_bind H. injection H as <-. cbn [ts_sym ts_sf ts_dirtied ts_boxes ts_num]. destruct (clear_proper _ _ _ E1) as (L & P).
    unfold P_SymSafe.prepare_boxes. rewrite E. cbn [obind P_SymSafe.b_num]. rewrite L.
    assert (all_proper bs /\ (if ts_num ts <? v then let* num := int_val (v + 10) in
        let bytes := to_int (num * 16) in if ok && (0 <=? bytes) then Ok (P_SymSafe.mkBoxes num (bytes / 16)) else Ok (P_SymSafe.mkBoxes (ts_num ts) (Z.of_nat (length (ts_boxes ts))))
        else Ok (P_SymSafe.mkBoxes (ts_num ts) (Z.of_nat (length (ts_boxes ts))))) = Ok (P_SymSafe.mkBoxes n (Z.of_nat (length bs)))) as (X & Y).
    { destruct (ts_num ts <? v).
      - inv_bind E0. rewrite E2. cbn [obind]. destruct (ok && (0 <=? to_int (v1 * 16))) eqn:Z.
        + injection E0 as <- <- <-. split; [intros i Hi; rewrite box_repeat; apply rect0_proper|].
          rewrite repeat_length. do 2 f_equal. apply andb_prop in Z. destruct Z as (_ & Z). apply Z.leb_le in Z.
          rewrite Z2Nat.id; auto. apply Z.div_pos; lia.
        + injection E0 as <- <- <-. auto.
      - injection E0 as <- <- <-. auto. }
    split; auto.
  Qed.

  Record ainv (all : Prop) (ts : tsurf) : Prop := { a_sinv : sinv all ts; a_proper : all_proper (ts_boxes ts) }.

  Lemma sstep_ainv : forall all ts e ts' r, (all \/ ~ all) -> ainv all ts -> few_lines e ->
    (all -> boxes_allocated e) -> (~ all -> no_snowflake e) -> sstep trig mix G ts e = Ok (ts', r) -> ainv all ts'.
  Proof.
    intros all ts e ts' r Dec [I A] F4 Fa Fn H. destruct e; cbn [sstep] in H.
    - injection H as <- _. split; [|exact A]. cbn [ts_sym ts_num ts_boxes].
      destruct (P_SymSafe.step_ok G all _ _ (P_SymSafe.SetSymmetry active (cx : num32) cy angle ty lines) I F4) as (d' & b' & E & I'); auto.
      cbn in E. injection E as <- <-. exact I'.
    - inv_bind H. injection H as <- _. unfold begin_atomic in E. inv_bind E.
      destruct (P_SymSafe.step_ok G all _ _ (P_SymSafe.BeginAtomic transforms_ok rects_ok) I Logic.I) as (d' & b' & E1 & I'); auto.
      cbn [P_SymSafe.step] in E1. rewrite E0 in E1. cbn [obind] in E1.
      destruct (prepare_match _ _ _ E) as (S & _ & _ & P & M); [exact A|]. cbn [ts_sym ts_num ts_boxes] in *. rewrite M in E1.
      cbn [obind] in E1. injection E1 as <- <-. split; auto. rewrite S. exact I'.
    - inv_bind H. destruct v as (ts1, m). injection H as <- _. destruct (draw_boxes _ _ _ _ _ I E A) as (A1 & (L & _) & N & S & _).
      split; auto. rewrite S, N, L. exact I.
    - inv_bind H. destruct v as (sf, seen). injection H as <- _. split; auto.
    - inv_bind H. destruct v as (ts1, rr). injection H as <- _. unfold end_atomic in E. inv_bind E. destruct roi as [(rects, cap)|].
      + inv_bind E. injection E as <- _. split; auto.
      + injection E as <- _. split; auto.
  Qed.

  Lemma srun_ainv : forall all evs ts rs ts' rs', (all \/ ~ all) -> ainv all ts -> Forall few_lines evs ->
    (all -> Forall boxes_allocated evs) -> (~ all -> Forall no_snowflake evs) ->
    ofold (fun (a : tsurf * list sres) (e : sev) => let* (ts, r) := sstep trig mix G (fst a) e in Ok (ts, snd a ++ [r])) evs (ts, rs) = Ok (ts', rs') ->
    ainv all ts'.
  Proof.
    intros all. induction evs as [|e evs IH]; intros ts rs ts' rs' Dec A F4 Fa Fn H.
    - cbn in H. injection H as <- _. exact A.
    - apply srun_cons in H. destruct H as (ts1 & r & E & H). inversion F4; subst.
      eapply IH; [exact Dec| |eauto| | |exact H].
      + eapply sstep_ainv; eauto.
        * intros X. specialize (Fa X). inversion Fa; auto.
        * intros X. specialize (Fn X). inversion Fn; auto.
      + intros X. specialize (Fa X). inversion Fa; auto.
      + intros X. specialize (Fn X). inversion Fn; auto.
  Qed.

  Lemma init_ainv : forall all ok junk pix ts, tiled_surface_init G ok junk pix = Ok ts -> ainv all ts.
  Proof.
    intros all ok junk pix ts H. unfold tiled_surface_init in H. inv_bind H. injection H as <-.
    destruct (default_wf G ok) as (d & E' & W & A0 & P0 & C0). rewrite E' in E. injection E as <-.
    assert (s_lines (sd_cur d) <= 4000000 /\ s_type (sd_cur d) <> Snowflake) as (L0 & T0).
    { destruct ok.
      - destruct (C0 eq_refl) as (_ & X). rewrite X, P0. cbn. split; [lia|discriminate].
      - unfold default_symmetry_data in E'. rewrite alloc_ok in E' by lia. injection E' as <-. cbn. split; [lia|discriminate]. }
    split; cbn [ts_sym ts_num ts_boxes].
    - replace (Z.of_nat (length (repeat rect0 32))) with 32 by reflexivity. constructor; auto; cbn [P_SymSafe.b_num P_SymSafe.b_cap]; try lia; rewrite ?P0; cbn [s_lines s_type]; try lia.
      + contradiction. + right. split; [auto|discriminate].
    - change (all_proper (repeat rect0 32)). intros i Hi. rewrite box_repeat. apply rect0_proper.
  Qed.

  (** *** Inside one atomic operation *)
  (** dabs, reads and changes of symmetry that do not switch it off *)
  Definition inside_atomic (e : sev) : Prop :=
    match e with SSym active _ _ _ _ _ => active = true | SBegin _ _ => False | SEnd _ _ => False | _ => True end.
  (** what draw_dab returned *)
  Definition returned (rs : list sres) : list bool := flat_map (fun r => match r with RDab m => [m] | _ => [] end) rs.

  Lemma used_on : forall all ts cx cy angle ty lines, sinv all ts ->
    used_of (ts_sym ts) (ts_num ts) <= used_of (set_pending (ts_sym ts) true (cx : num32) cy angle ty lines) (ts_num ts).
  Proof.
    intros all ts cx cy angle ty lines I. pose proof (used_range _ _ I) as U. unfold used_of, set_pending in *.
    cbn [sd_active sd_num sd_cur andb]. destruct (sd_active (ts_sym ts)); cbn [andb] in *; [lia|].
    destruct (negb _); [|lia]. destruct I as [[Wc _ _ _] _ _ _ N _ _]. destruct Wc as (L & L2). cbn in N.
    destruct (s_type (sd_cur (ts_sym ts))); try lia.
  Qed.

  Definition covered (ts : tsurf) (ds : list dab) (m : Z) : Prop :=
    forall d, In d ds -> (exists o, prepare_op d = Ok (Some o)) -> exists i, 0 <= i < m /\ dab_in (ts_boxes ts) d i.

  Lemma covered_app : forall ts a b m, covered ts a m -> covered ts b m -> covered ts (a ++ b) m.
  Proof. intros ts a b m A B d I. apply in_app_or in I. destruct I; auto. Qed.
  Lemma covered_grown : forall ts ts' ds m m', m <= m' -> grown (ts_boxes ts) (ts_boxes ts') -> covered ts ds m -> covered ts' ds m'.
  Proof. intros ts ts' ds m m' L Gr C d I O. destruct (C d I O) as (i & Hi & D). exists i. split; [lia|]. eapply dab_in_grown; eauto. lia. Qed.

  Lemma last_app2 : forall (a l : list bool) b, last l (last a b) = last (a ++ l) b.
  Proof.
    intros a l b. destruct l as [|x l _] using rev_ind; [rewrite app_nil_r; reflexivity|].
    rewrite app_assoc, !last_last. reflexivity.
  Qed.

  (** [m]: the number of rectangles that matter so far; [b]: was the last dab accepted *)
  Lemma inner_covered : forall all evs ts rs ts' rs' ds m b, (all \/ ~ all) -> ainv all ts -> Forall few_lines evs ->
    (~ all -> Forall no_snowflake evs) -> Forall inside_atomic evs ->
    ofold (fun (a : tsurf * list sres) (e : sev) => let* (ts, r) := sstep trig mix G (fst a) e in Ok (ts, snd a ++ [r])) evs (ts, rs) = Ok (ts', rs') ->
    covered ts ds m -> 0 <= m <= used_of (ts_sym ts) (ts_num ts) -> (b = true -> ts_dirtied ts = m) ->
    ainv all ts' /\ exists m' new, covered ts' (ds ++ placed trig mix G ts evs) m' /\ 0 <= m' <= used_of (ts_sym ts') (ts_num ts') /\
      rs' = rs ++ new /\ (last (returned new) b = true -> ts_dirtied ts' = m') /\
      (forall d, In d (placed trig mix G ts evs) -> (exists o, prepare_op d = Ok (Some o)) -> In true (returned new)).
  Proof.
    intros all. induction evs as [|e evs IH]; intros ts rs ts' rs' ds m b Dec A F4 Fn Fi H C M B.
    - cbn in H. injection H as <- <-. split; auto. exists m, []. rewrite !app_nil_r. split; [auto|]. split; [auto|]. split; [auto|]. split; [auto|]. intros d [].
    - apply srun_cons in H. destruct H as (ts1 & r & E & H). inversion F4 as [|? ? F4a F4b]; subst. inversion Fi as [|? ? Fia Fib]; subst.
      assert (ainv all ts1) as A1.
      { eapply sstep_ainv; eauto.
        - intros _. destruct e; cbn in *; try contradiction; auto.
        - intros X. specialize (Fn X). inversion Fn; auto. }
      assert (~ all -> Forall no_snowflake evs) as Fnb by (intros X; specialize (Fn X); inversion Fn; auto).
      cbn [placed]. rewrite E.
      assert (exists m1, covered ts1 (ds ++ match e with SDab d => d :: copies_of G ts d | _ => [] end) m1 /\
        0 <= m1 <= used_of (ts_sym ts1) (ts_num ts1) /\ (last (returned [r]) b = true -> ts_dirtied ts1 = m1) /\
        (forall d, In d (match e with SDab d => d :: copies_of G ts d | _ => [] end) -> (exists o, prepare_op d = Ok (Some o)) -> In true (returned [r]))) as (m1 & C1 & M1 & B1 & R1).
      { destruct A as [I P]. destruct e as [active cx cy angle ty lines|ok1 ok2|d|canw canr rows|can roi]; cbn [sstep inside_atomic] in *; try contradiction.
        - injection E as <- <-. exists m. rewrite app_nil_r. split; [exact C|]. cbn [ts_sym ts_num ts_dirtied]. subst active.
          pose proof (used_on all ts cx cy angle ty lines I). split; [lia|]. split; [exact B|]. intros d [].
        - inv_bind E. destruct v as (ts2, md). injection E as <- <-.
          destruct (draw_boxes _ _ _ _ _ I E0 P) as (P1 & G1 & N1 & S1 & Mf & Mt). cbn [returned flat_map app last].
          rewrite N1, S1. destruct md.
          + destruct (Mt eq_refl) as (D1 & D2). exists (used_of (ts_sym ts) (ts_num ts)). split; [|split; [lia|split; [auto|]]].
            * apply covered_app; [eapply covered_grown; [|exact G1|exact C]; lia|]. intros d' Id _. apply D2. exact Id.
            * intros. left. reflexivity.
          + destruct (Mf eq_refl) as (D1 & D2 & D3). exists m. rewrite D1. split; [|split; [lia|split; [discriminate|]]].
            * apply covered_app; [eapply covered_grown; [|exact G1|exact C]; lia|]. intros d' [<-|[]] (o & Ho). congruence.
            * intros d' [<-|[]] (o & Ho). congruence.
        - inv_bind E. destruct v as (sf, seen). injection E as <- <-. exists m. rewrite app_nil_r. split; [exact C|].
          split; [exact M|]. split; [exact B|]. intros d []. }
      destruct (IH ts1 (rs ++ [r]) ts' rs' _ m1 (last (returned [r]) b) Dec A1 F4b Fnb Fib H C1 M1 B1) as (A2 & m2 & new & C2 & M2 & Er & B2 & R2).
      split; auto. exists m2, (r :: new). split; [rewrite app_assoc; exact C2|]. split; [exact M2|]. split; [rewrite Er, <- app_assoc; reflexivity|].
      assert (returned (r :: new) = returned [r] ++ returned new) as Ea by (change (r :: new) with ([r] ++ new); apply flat_map_app).
      rewrite Ea. split.
      + intros L. apply B2. rewrite <- L. apply last_app2.
      + intros d Id O. apply in_or_app. apply in_app_or in Id. destruct Id as [Id|Id]; [left; eapply R1; eauto|right; eapply R2; eauto].
  Qed.

  (** *** The output *)
  Lemma write_covers : forall boxes n roi cap roi' k, all_proper boxes -> 0 <= n <= 16777216 -> 1 <= cap ->
    write_roi boxes n roi cap = Ok (roi', k) ->
    k = Z.min cap n /\ forall i, 0 <= i < n -> exists j, 0 <= j < k /\ sub (box boxes i) (box roi' j).
  Proof.
    intros boxes n roi cap roi' k A Hn Hc H. unfold write_roi in H. inv_bind H. rename v into roi1. inv_bind H. rename v into roi2.
    injection H as <- <-. split; [reflexivity|]. set (k := Z.min cap n) in *.
    assert (forall j, 0 <= j < k -> box roi1 j = rect0) as Z1.
    { assert (forall c z l l', 0 <= z -> ofold (fun bs i => let* _ := at_index bs i in Ok (upd bs (Z.to_nat i) rect0)) (zrange z c) l = Ok l' ->
        forall j, 0 <= j -> (z <= j < z + Z.of_nat c \/ box l j = rect0) -> box l' j = rect0) as K.
      { induction c as [|c IH]; intros z l l' Hz H j Hj.
        - cbn in H. injection H as <-. intros [?|?]; [lia|auto].
        - rewrite zrange_cons in H. cbn [ofold] in H. inv_bind H. inv_bind E1. injection E1 as <-.
          destruct (at_index_inv _ _ _ _ E2) as (Hb & _). intros Hc'. assert (0 <= z + 1) as Hz1 by lia. apply (IH _ _ _ Hz1 H j Hj).
          rewrite box_upd by auto. destruct (Z.eqb_spec z j); [right; reflexivity|]. destruct Hc'; [left; lia|right; auto]. }
      intros j Hj. eapply K; [|exact E|lia|left]; lia. }
    assert (forall c z l l', 0 <= z -> z + Z.of_nat c <= n ->
      ofold (fun roi i => let* j := roi_index n cap i in let* r := at_index roi j in let* b := at_index boxes i in
                          let* r := expand_rect r b in Ok (upd roi (Z.to_nat j) r)) (zrange z c) l = Ok l' ->
      (forall j, 0 <= j < k -> proper (box l j)) ->
      (forall j, 0 <= j < k -> proper (box l' j) /\ sub (box l j) (box l' j)) /\
      forall i, z <= i < z + Z.of_nat c -> exists j, 0 <= j < k /\ sub (box boxes i) (box l' j)) as K.
    { induction c as [|c IH]; intros z l l' Hz Hzn H Pl.
      - cbn in H. injection H as <-. split; [auto using sub_refl|]. intros. lia.
      - rewrite zrange_cons in H. cbn [ofold] in H. inv_bind H. inv_bind E1. inv_bind E1. inv_bind E1. inv_bind E1. injection E1 as <-.
        rename v0 into j, v1 into r, v2 into b, v3 into r'.
        destruct (roi_index_ok n cap z) as (j' & Ej & Hj & Hj2 & _); try lia. rewrite E2 in Ej. injection Ej as <-.
        destruct (at_index_inv _ _ _ _ E3) as (Lj & Vj). destruct (at_index_inv _ _ _ _ E4) as (Lb & Vb).
        assert (box l j = r) as Bj by apply Vj. assert (box boxes z = b) as Bb by apply Vb.
        assert (0 <= j < k) as Jk by lia.
        destruct (rect_grows r b r') as (S & U1 & U2); [rewrite <- Bj; auto|rewrite <- Bb; apply A; lia|exact E5|].
        destruct (IH (z + 1) (upd l (Z.to_nat j) r') l') as (P2 & Q2); [lia|lia|exact H| |].
        { intros i Hi. rewrite box_upd by lia. destruct (Z.eqb_spec j i); auto using solid_proper. }
        split.
        + intros i Hi. destruct (P2 i Hi) as (X & Y). split; auto. rewrite box_upd in Y by lia.
          destruct (Z.eqb_spec j i); auto. subst i. rewrite Bj. eapply sub_trans; eauto.
        + intros i Hi. destruct (Z.eq_dec i z) as [->|N]; [|apply Q2; lia].
          exists j. split; auto. rewrite Bb. destruct (P2 j Jk) as (_ & Y). rewrite box_upd, Z.eqb_refl in Y by lia. eapply sub_trans; eauto. }
    intros i Hi. destruct (K (Z.to_nat n) 0 roi1 roi2) as (_ & Q); [lia|lia|exact E0| |apply Q; lia].
    intros j Hj. rewrite Z1 by auto. apply rect0_proper.
  Qed.
End Array.
