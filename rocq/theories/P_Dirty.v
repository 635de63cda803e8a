(** Property C12: the rectangles reported by end_atomic cover every pixel that
    changed since begin_atomic.  Bit exact. *)
From Verif Require Import Base F32 F32Proofs Queue QueueProofs Blend BlendProofs Mask MaskProofs OpaProofs RrProofs
  MaskFloatProofs FarProofs Rect Arith Symmetry Plumb PlumbProofs KeepProofs Dab DabProofs HistoryProofs SurfProofs.
From Coq Require Import Reals Lra.
From Flocq Require Import Core.Core IEEE754.BinarySingleNaN.
From Verif Require P_SymSafe.
From Verif Require Import P_Mask P_Rect RoiProofs DirtyProofs P_Dab.
Local Open Scope Z_scope.

(** ** Vocabulary *)
(** [inside] (P_Rect.v): a pixel lies in a rectangle.
    [few_lines]: at most four million symmetry lines; [boxes_allocated]: the
    allocation of rectangles succeeds; [no_snowflake] (DirtyProofs.v).
    [inside_atomic]: a dab, a read, or a change of symmetry that leaves it on.
    [returned rs]: the results of the draw_dab calls. *)
(** have dabs been drawn since the last end_atomic? *)
Definition unflushed (evs : list sev) : bool :=
  fold_left (fun b e => match e with SDab _ => true | SEnd _ _ => false | _ => b end) evs false.

Section C12.
  Variables (trig : trig_oracle) (mix : mix_oracle) (G : trigops num32).
  Notation srun := (srun trig mix G).
  Notation placed := (placed trig mix G).

  Lemma settled : forall ok junk pix0 ts0 evs ts rs t,
    tiled_surface_init G ok junk pix0 = Ok ts0 -> srun ts0 evs = Ok (ts, rs) ->
    (forall e, In e evs -> sgranted t e) ->
    good op (list Z) (ts_sf ts) t /\ (unflushed evs = false -> QueueProofs.pend (sf_q (ts_sf ts)) t = []).
  Proof.
    intros ok junk pix0 ts0 evs ts rs t I0 H Gr. revert ts rs H Gr. induction evs as [|e evs IH] using rev_ind; intros ts rs H Gr.
    - cbn in H. injection H as <- _. unfold tiled_surface_init in I0. inv_bind I0. injection I0 as <-.
      split; [apply (good_fresh op (list Z) pix0)|]. intros _. cbn [ts_sf sf_q]. apply pend_new.
    - destruct (srun_app _ _ _ _ _ _ _ _ H) as (ts1 & rs1 & H1 & H2).
      destruct (IH _ _ H1) as (Gd & Pn); [intros; apply Gr, in_or_app; auto|].
      apply srun_cons in H2. destruct H2 as (ts2 & r & S & H2). cbn in H2. injection H2 as -> _.
      unfold unflushed in *. rewrite fold_left_app. cbn [fold_left].
      assert (sgranted t e) as Ge by (apply Gr, in_or_app; right; left; reflexivity).
      destruct e; cbn [Dab.sstep sgranted] in *.
      + injection S as <- _. cbn [ts_sf]. auto.
      + inv_bind S. injection S as <- _. unfold begin_atomic in E. inv_bind E. unfold prepare_bounding_boxes in E.
        inv_bind E. inv_bind E. destruct v2 as ((bs, n), dd). inv_bind E. injection E as <-. cbn [ts_sf] in *. auto.
      + inv_bind S. destruct v as (ts3, m). injection S as <- _. split; [|discriminate].
        destruct (draw_hist trig mix G _ _ _ _ [] E) as (_ & _ & out & K).
        eapply (run_gen op (list Z) (op_steps trig mix)); [exact Gd| |exact K].
        intros e' Ie. apply in_flat_map in Ie. destruct Ie as (d' & _ & Ie). unfold ev_of_dab in Ie.
        destruct (prepare_op d') as [[o|]| |]; try contradiction. destruct (op_tiles o); try contradiction.
        destruct Ie as [<-|[]]. exact Logic.I.
      + inv_bind S. destruct v as (sf, seen). injection S as <- _. cbn [ts_sf].
        destruct (read_spec op (list Z) (op_steps trig mix) canw canr rows _ _ _ (good_wf _ _ _ _ Gd) E) as (W & D & V & _).
        split.
        * constructor; auto. intros Np. rewrite D. apply (good_mark _ _ _ _ Gd). intros Z. apply Np. apply (V t Ge). exact Z.
        * intros U. apply (V t Ge). auto.
      + inv_bind S. destruct v as (ts3, rr). injection S as <- _. unfold end_atomic in E. inv_bind E.
        destruct (flush_tile op (list Z) (op_steps trig mix) can _ _ t Gd Ge E0) as (Pe & _).
        destruct (flush_spec op (list Z) (op_steps trig mix) can _ _ (good_wf _ _ _ _ Gd) E0) as (W & _).
        assert (ts_sf ts3 = v) as ->.
        { destruct roi as [(rects, cap)|]; [inv_bind E; injection E as <- _|injection E as <- _]; reflexivity. }
        split; [|auto]. constructor; auto. intros Np. contradiction.
  Qed.

  (** Between begin_atomic and end_atomic, every pixel whose value differs at the
      end lies in one of the reported rectangles: the first [n] elements of the
      caller's array.  Hypotheses that the full claim does not have: the dabs are
      [regular]; the last draw_dab of the operation drew something, if any did
      (without it the claim is false, below); the symmetry is not switched off in
      the middle (false without, below); nothing is left over on the pixel's tile
      from before begin_atomic; bounds on the number of symmetry lines as in C17. *)
  Theorem C12_changes_reported_partial : forall ok junk pix0 ts0 before tsb rsb inner can roi cap ts rs roi' n X Y,
    tiled_surface_init G ok junk pix0 = Ok ts0 -> canvas pix0 ->
    (exists ok1 ok2, srun ts0 (before ++ [SBegin ok1 ok2]) = Ok (tsb, rsb) /\
       Forall few_lines (before ++ inner) /\
       (Forall boxes_allocated (before ++ [SBegin ok1 ok2]) \/ Forall no_snowflake (before ++ inner))) ->
    (forall e, In e before -> sgranted (X / 64, Y / 64) e) -> unflushed before = false ->
    srun tsb (inner ++ [SEnd can (Some (roi, cap))]) = Ok (ts, rs ++ [RRoi (Some (roi', n))]) ->
    Forall inside_atomic inner -> 1 <= cap ->
    (forall d, In d (placed tsb inner) -> regular trig d) ->
    (In true (returned rs) -> last (returned rs) true = true) ->
    pixel_of (sf_pix (ts_sf ts)) X Y <> pixel_of (sf_pix (ts_sf tsb)) X Y ->
    exists j, 0 <= j < n /\ inside (nth (Z.to_nat j) roi' rect0) X Y.
  Proof.
    intros ok junk pix0 ts0 before tsb rsb inner can roi cap ts rs roi' n X Y I0 C0 (ok1 & ok2 & R0 & F4 & Fk) Gr Uf R Fi Hc Rg La Ne.
    set (t := (X / 64, Y / 64)) in *.
    apply Forall_app in F4. destruct F4 as (F4b & F4i).
    (* the array *)
    set (all := Forall boxes_allocated (before ++ [SBegin ok1 ok2])).
    assert (all \/ ~ all) as Dec.
    { unfold all. clear. induction (before ++ [SBegin ok1 ok2]) as [|e l IH]; [left; constructor|].
      assert (boxes_allocated e \/ ~ boxes_allocated e) as [D|D] by (destruct e as [| ? []| | |]; cbn; auto).
      - destruct IH; [left; constructor; auto|right; intros X; inversion X; auto].
      - right. intros X. inversion X. auto. }
    assert (~ all -> Forall no_snowflake before /\ Forall no_snowflake inner) as Fn.
    { intros N. destruct Fk as [Fk|Fk]; [contradiction|]. apply Forall_app in Fk. exact Fk. }
    assert (ainv G all tsb) as Ab.
    { eapply (srun_ainv trig mix G all (before ++ [SBegin ok1 ok2]) ts0 []); [exact Dec|eapply init_ainv; eauto| |auto| |exact R0].
      - apply Forall_app. split; auto. repeat constructor.
      - intros N. apply Forall_app. split; [apply Fn; auto|]. repeat constructor. }
    assert (ts_dirtied tsb = 0) as D0.
    { destruct (srun_app _ _ _ _ _ _ _ _ R0) as (ts1 & rs1 & _ & R2). apply srun_cons in R2. destruct R2 as (ts2 & r & S & R2).
      cbn in R2. injection R2 as -> _. cbn [Dab.sstep] in S. inv_bind S. injection S as <- _. unfold begin_atomic in E. inv_bind E.
      unfold prepare_bounding_boxes in E. inv_bind E. inv_bind E. destruct v2 as ((bs, nn), dd). inv_bind E. injection E as <-. reflexivity. }
    destruct (srun_app _ _ _ _ _ _ _ _ R) as (ts1 & rs1 & R1 & R2).
    pose proof (used_range G all tsb (a_sinv _ _ _ Ab)) as Ub.
    destruct (inner_covered trig mix G all inner tsb [] ts1 rs1 [] 0 true Dec Ab F4i (fun N => proj2 (Fn N)) Fi R1) as (A1 & m & new & Cv & Mu & Er & Bl & Rl).
    { intros d []. } { lia. } { auto. }
    cbn [app] in Er, Cv. subst new. pose proof (used_range G all ts1 (a_sinv _ _ _ A1)) as U1.
    (* the end *)
    apply srun_cons in R2. destruct R2 as (ts2 & r & S & R2). cbn in R2. injection R2 as -> R2.
    apply app_inj_tail in R2. destruct R2 as (-> & ->). cbn [Dab.sstep] in S. inv_bind S. destruct v as (ts3, rr). injection S as -> ->.
    unfold end_atomic in E. inv_bind E. inv_bind E. injection E as <- ->. cbn [ts_boxes ts_dirtied] in *.
    (* either nothing was drawn, or the counter is right *)
    assert (forall d, In d (placed tsb inner) -> forall o, prepare_op d = Ok (Some o) -> exists j, 0 <= j < n /\ covers (nth (Z.to_nat j) roi' rect0) o) as Fin.
    { intros d Id o Po. specialize (La (Rl d Id (ex_intro _ o Po))). apply Bl in La.
      destruct (Cv d Id (ex_intro _ o Po)) as (i & Hi & Di). specialize (Di o Po (regular_op trig d o (Rg d Id) Po)).
      pose proof (P_SymSafe.i_num _ _ _ _ (a_sinv _ _ _ A1)) as Nn. cbn in Nn. assert (0 <= ts_dirtied ts1 <= 16777216) as Hd by lia.
      destruct (write_covers _ _ _ _ _ _ (a_proper _ _ _ A1) Hd Hc E1) as (_ & W). destruct (W i) as (j & Hj & Sj); [lia|].
      exists j. split; [exact Hj|]. eapply covers_sub; eauto. }
    destruct (Classical_Prop.classic (exists j, 0 <= j < n /\ inside (nth (Z.to_nat j) roi' rect0) X Y)) as [|No]; [auto|exfalso].
    apply Ne. clear Ne.
    set (P := fun (u : tile) mem => tile_ok mem /\
                (u = t -> pixel_at mem (X mod 64) (Y mod 64) = pixel_of (sf_pix (ts_sf tsb)) X Y)).
    set (Q := fun (u : tile) o => u = t -> op_ok trig o /\ (exists tiles, op_tiles o = Ok tiles /\ In u tiles) /\
                (away X (o_x o) (o_radius o) \/ away Y (o_y o) (o_radius o))).
    assert (forall u o mem mem', Q u o -> P u mem -> process_op trig mix u o mem = Ok mem' -> P u mem') as St.
    { intros u o mem mem' Qo (L & Px) H.
      destruct (process_op_px trig mix u o mem mem' L H) as (L' & _). split; [exact L'|]. intros ->.
      rewrite <- Px by reflexivity. destruct (Qo eq_refl) as (O & (tiles & ET & It) & Aw).
      eapply op_far_px; eauto.
      - pose proof (Z.mod_pos_bound X 64). lia.
      - pose proof (Z.mod_pos_bound Y 64). lia.
      - unfold t. cbn [fst snd]. rewrite <- !Z.div_mod by lia. exact Aw. }
    destruct (srun_app _ _ _ _ _ _ _ _ R0) as (tsa & rsa & R0a & R0b).
    destruct (settled ok junk pix0 ts0 before tsa rsa t I0 R0a Gr) as (_ & Pe). specialize (Pe Uf).
    assert (ts_sf tsb = ts_sf tsa) as Sf.
    { apply srun_cons in R0b. destruct R0b as (ts2 & r & S & R3). cbn in R3. injection R3 as -> _. cbn [Dab.sstep] in S.
      inv_bind S. injection S as <- _. unfold begin_atomic in E. inv_bind E. unfold prepare_bounding_boxes in E. inv_bind E. inv_bind E.
      destruct v3 as ((bs, nn), dd). inv_bind E. injection E as <-. reflexivity. }
    assert (keeps op (list Z) (fun _ mem => tile_ok mem) (fun _ _ => True) (ts_sf tsb)) as Kb.
    { eapply (srun_keeps trig mix G (fun _ mem => tile_ok mem) (fun _ _ => True)); [|exact R0| |].
      - intros u o mem mem' _ L H. apply (process_op_px trig mix u o mem mem' L H).
      - unfold tiled_surface_init in I0. inv_bind I0. injection I0 as <-. apply fresh_keeps. exact C0.
      - intros d _ o tiles u _ _ _. exact Logic.I. }
    assert (keeps op (list Z) P Q (ts_sf tsb)) as K0.
    { destruct Kb as [W Kp _]. constructor; auto.
      - intros u. split; [apply Kp|]. intros ->. reflexivity.
      - intros u o Io ->. rewrite Sf, Pe in Io. destruct Io. }
    pose proof (srun_keeps trig mix G P Q St _ tsb [] _ _ R K0) as K.
    apply K with (t := t); [|reflexivity].
    intros d Id o tiles u EP ET It ->.
    rewrite (placed_app _ _ _ _ _ _ _ _ R1) in Id. apply in_app_or in Id. destruct Id as [Id|Id].
    2:{ cbn [HistoryProofs.placed app] in Id. destruct (Dab.sstep _ _ _ _ _) as [[? ?]| |]; destruct Id. }
    pose proof (regular_op trig d o (Rg d Id) EP) as O. split; [exact O|]. split; [eauto|].
    apply (not_area_away trig); auto. intros Ar. destruct (Fin d Id o EP) as (j & Hj & Cj). apply No. exists j. split; auto.
  Qed.
End C12.

(** ** Where the full claim fails *)
(** opacity of a pixel before and after an atomic operation, and the rectangles
    reported to a caller with room for [cap] *)
Definition report (before inner : list sev) (cap : Z) (X Y : Z) : option (Z * Z * list rect) :=
  match tiled_surface_init no_turn true 0 blank with
  | Ok ts =>
      match srun flat no_mix no_turn ts (before ++ [SBegin true true]) with
      | Ok (tsb, _) =>
          match srun flat no_mix no_turn tsb (inner ++ [SEnd (fun _ => true) (Some (repeat rect0 (Z.to_nat cap), cap))]) with
          | Ok (ts, rs) =>
              match last rs RNone with
              | RRoi (Some (roi, n)) =>
                  Some (pa (pixel_of (sf_pix (ts_sf tsb)) X Y), pa (pixel_of (sf_pix (ts_sf ts)) X Y), firstn (Z.to_nat n) roi)
              | _ => None
              end
          | _ => None
          end
      | _ => None
      end
  | _ => None
  end.

Definition dab_at (x y : Z) : dab := round_dab (f_of_Z x) (f_of_Z y) f1 f1.
(** a dab with opacity zero, which draw_dab rejects *)
Definition invisible : dab := mkDab f0 f0 f1 f1 f1 f1 f0 f1 f0 f1 f1 f0 f0 f0 f0 f0 f0.

(** A rejected dab after an accepted one: the pixel changed, nothing is reported. *)
Theorem C12_rejected_dab_refuted :
  report [] [SDab (dab_at 10 10); SDab invisible] 4 10 10 = Some (0, 32768, []).
Proof. exact eq_refl. Qed.

(** Horizontal mirroring switched off in the middle of the operation: the mirror
    image of the first dab is not in the one rectangle reported.  (Here sin and
    cos are needed at 0 only.) *)
Definition mirror (on : bool) : sev := SSym on f0 (f_of_Z 20) f0 Horizontal 2.
Theorem C12_symmetry_off_refuted : exists r,
  report [mirror true] [SDab (dab_at 10 10); mirror false; SDab (dab_at 10 10)] 4 10 30 = Some (0, 32768, [r]) /\
  ~ inside r 10 30.
Proof. exists (mkRect 8 8 5 5). split; [exact eq_refl|]. unfold inside. cbn [rx ry rw rh]. lia. Qed.

(** ** A case of the theorem: two dabs and a read with mirroring, room for one
    rectangle; the mirror image lies inside it. *)
Example C12_case :
  report [mirror true] [SDab (dab_at 10 10); SRead (fun _ => true) (fun _ => true) [[(0, 0)]]; SDab (dab_at 12 10)] 1 10 30 =
    Some (0, 32768, [mkRect 8 8 7 25]) /\ inside (mkRect 8 8 7 25) 10 30.
Proof. split; [exact eq_refl|]. unfold inside. cbn [rx ry rw rh]. lia. Qed.
(** its hypotheses *)
Example C12_hypotheses :
  Forall inside_atomic [SDab (dab_at 10 10); SRead (fun _ => true) (fun _ => true) [[(0, 0)]]; SDab (dab_at 12 10)] /\
  Forall few_lines [mirror true] /\ Forall boxes_allocated [mirror true; SBegin true true] /\ unflushed [mirror true] = false /\
  regular flat (dab_at 10 10) /\ regular flat (dab_at 10 30).
Proof.
  split; [repeat constructor|]. split; [repeat constructor; cbn; lia|]. split; [repeat constructor|]. split; [reflexivity|].
  split; apply (C05_fine_case _ _ 1 (0, 0)); lia.
Qed.

Print Assumptions C12_changes_reported_partial.
Print Assumptions C12_rejected_dab_refuted.
Print Assumptions C12_symmetry_off_refuted.
