(** Property C49: a painting session on a tiled surface runs to completion, with
    nothing undefined and no abort, whatever the backend grants, whichever
    allocations of transforms fail and whatever is read in between.  Bit exact;
    [trig] is sin and cos of a dab's angle, [G] sin and cos of the symmetry
    transforms. *)
From Verif Require Import Base F32 F32Proofs Queue QueueProofs Blend Mask MaskProofs BlendProofs OpaProofs RrProofs
  MaskFloatProofs FarProofs Rect Arith Symmetry Plumb PlumbProofs P_Plumb KeepProofs Dab DabProofs HistoryProofs SurfProofs
  SymmetryProofs PassProofs Paint PaintProofs CompleteProofs.
From Coq Require Import Reals Lra ZifyBool.
From Flocq Require Import Core.Core IEEE754.BinarySingleNaN.
From Verif Require P_SymSafe P_Endless BrushProofs.
From Verif Require Import P_Mask P_Blend P_Rect RoiProofs DirtyProofs P_Dab P_Surface P_Paint SessionProofs.
Local Open Scope Z_scope.

(** ** Vocabulary *)
(** [workable trig d] (SessionProofs.v): the settings of the dab are finite
    numbers, its position is within 2^20, its radius at most 1010, colorize and
    posterize are off, not both lock-alpha and pigment are on, and the gap
    condition of C10_fits_engine_partial holds.
    [placed ts evs] (HistoryProofs.v): all dabs the session draws, with the
    copies made by the symmetry.
    [reaches d t] (HistoryProofs.v): dab [d] is queued on tile [t].
    [few_lines], [boxes_allocated], [no_snowflake] (DirtyProofs.v): at most four
    million symmetry lines; the allocation of rectangles succeeds; the snowflake
    symmetry is not chosen. *)

Definition is_end (e : sev) : bool := match e with SEnd _ _ => true | _ => false end.
Definition is_read (e : sev) : bool := match e with SRead _ _ _ => true | _ => false end.
Definition is_begin (e : sev) : bool := match e with SBegin _ _ => true | _ => false end.

(** a rectangle array is passed to end_atomic only after some begin_atomic, and
    has room for at least one rectangle *)
Fixpoint arrays_ok (begun : bool) (evs : list sev) : Prop :=
  match evs with
  | [] => True
  | e :: evs =>
      match e with
      | SEnd _ (Some (rects, cap)) => begun = true /\ 1 <= cap <= Z.of_nat (length rects)
      | _ => True
      end /\ arrays_ok (begun || is_begin e) evs
  end.

Section C49.
  Variables (trig : trig_oracle) (G : trigops num32).
  Notation srun := (srun trig paint_mix G).
  Notation sstep := (sstep trig paint_mix G).
  Notation placed := (placed trig paint_mix G).

  (** Between two end_atomic calls: nothing is read, or one of the 400 tiles
      around the origin stays untouched.  (Without this the program really
      aborts: C03_never_aborts_refuted.) *)
  Definition roomy (ts0 : tsurf) (evs : list sev) : Prop :=
    forall a b c ts rs, evs = a ++ b ++ c -> srun ts0 a = Ok (ts, rs) -> (forall e, In e b -> is_end e = false) ->
    (forall e, In e b -> is_read e = false) \/
    exists t, central t /\ forall d, In d (placed ts b) -> ~ reaches d t.

  (** *** One step *)
  Definition P (_ : tile) (mem : list Z) : Prop := tile_valid mem.
  Definition Q (t : tile) (o : op) : Prop :=
    exists d tiles, workable trig d /\ prepare_op d = Ok (Some o) /\ op_tiles o = Ok tiles /\ In t tiles.

  Lemma step_PQ : forall t o mem, Q t o -> P t mem -> exists mem', apply op (list Z) (op_steps trig paint_mix) t mem o = Ok mem' /\ P t mem'.
  Proof.
    intros t o mem (d & tiles & Wk & Pd & ET & It) V. rewrite op_steps_ok. eapply process_total_op; eauto.
  Qed.

  (** the state after the events [p] from [ts0] *)
  Record inv (all : Prop) (ts0 : tsurf) (p : list sev) (ts : tsurf) : Prop := {
    v_array : ainv G all ts;
    v_keeps : keeps op (list Z) P Q (ts_sf ts);
    v_sized : sized (sf_q (ts_sf ts));
    v_neat : all_neat (ts_boxes ts);
    v_moderate : all_moderate (ts_boxes ts);
    v_begun : existsb is_begin p = true -> 0 <= ts_dirtied ts <= ts_num ts;
    v_chunk : exists a b tsa rsa, p = a ++ b /\ srun ts0 a = Ok (tsa, rsa) /\ (exists rsb, srun tsa b = Ok (ts, rsb)) /\ (forall e, In e b -> is_end e = false) /\
      (forall t, In t (q_dirty (sf_q (ts_sf ts))) -> exists d, In d (placed tsa b) /\ reaches d t) /\
      ((forall e, In e b -> is_read e = false) -> room None (sf_q (ts_sf ts))) }.

  Lemma draws_dirty : forall ds s out s' out', wf (sf_q s) ->
    ofold (ev_step op (list Z) (op_steps trig paint_mix)) (flat_map ev_of_dab ds) (s, out) = Ok (s', out') ->
    wf (sf_q s') /\ (forall t, In t (q_dirty (sf_q s')) -> In t (q_dirty (sf_q s)) \/ exists d, In d ds /\ reaches d t) /\
    (room None (sf_q s) -> room None (sf_q s')).
  Proof.
    induction ds as [|d ds IH]; intros s out s' out' W H; cbn [flat_map] in H.
    - cbn in H. injection H as <- <-. auto.
    - rewrite ofold_app in H. inv_bind H. destruct v as (s1, out1).
      assert (wf (sf_q s1) /\ (forall t, In t (q_dirty (sf_q s1)) -> In t (q_dirty (sf_q s)) \/ reaches d t) /\
        (room None (sf_q s) -> room None (sf_q s1))) as (W1 & D1 & R1).
      { unfold ev_of_dab in E. destruct (prepare_op d) as [[o|]| |] eqn:Pd; [destruct (op_tiles o) as [tiles| |] eqn:ET| | |];
          try (cbn in E; injection E as <- <-; auto).
        cbn [ofold ev_step] in E. inv_bind E. inv_bind E0. injection E0 as <-. injection E as <- <-. unfold enqueue in E1. inv_bind E1. injection E1 as <-. cbn [sf_q].
        destruct (enqueue_q op o tiles _ _ W E) as (W1 & _ & _). split; [exact W1|]. split.
        - intros t It. destruct (adds_dirty op o tiles _ _ W E t It) as [|It2]; [auto|]. right.
          destruct (prepare_fields d o Pd) as (E1 & E2 & E3 & _). exists tiles. split; [|exact It2]. rewrite <- E1, <- E2, <- E3. exact ET.
        - clear - W E. revert W E. generalize (sf_q s). intros q W E. revert q W E. induction tiles as [|t tiles IH]; intros q W E R; cbn [ofold] in E; [injection E as <-; exact R|].
          inv_bind E. eapply IH; [|exact E|]; [apply (add_spec _ _ _ _ _ W E0)|]. eapply add_room; eauto. discriminate. }
      destruct (IH _ _ _ _ W1 H) as (W2 & D2 & R2). split; [exact W2|]. split; [|auto].
      intros t It. destruct (D2 t It) as [It1|(d' & Id & Rd)]; [|right; exists d'; split; [right; auto|auto]].
      destruct (D1 t It1) as [|Rd]; [auto|]. right. exists d. split; [left; auto|auto].
  Qed.

  Lemma srun_snoc : forall ts0 p ts rs e ts' r, srun ts0 p = Ok (ts, rs) -> sstep ts e = Ok (ts', r) ->
    srun ts0 (p ++ [e]) = Ok (ts', rs ++ [r]).
  Proof. intros ts0 p ts rs e ts' r H E. unfold Dab.srun in *. rewrite ofold_app, H. cbn [obind ofold fst snd]. rewrite E. reflexivity. Qed.

  Lemma placed_one : forall ts e, placed ts [e] = match e with SDab d => d :: copies_of G ts d | _ => [] end.
  Proof. intros ts e. cbn [HistoryProofs.placed]. destruct e; cbn [app]; destruct (Dab.sstep _ _ _ _ _) as [(?, ?)| |]; rewrite ?app_nil_r; reflexivity. Qed.

  Lemma placed_prefix : forall a b ts d, In d (placed ts a) -> In d (placed ts (a ++ b)).
  Proof.
    induction a as [|e a IH]; intros b ts d I; [destruct I|]. cbn [app HistoryProofs.placed] in *. apply in_or_app. apply in_app_or in I.
    destruct I as [|I]; [auto|]. right. destruct (Dab.sstep _ _ _ _ _) as [(ts1, r)| |]; auto.
  Qed.

  Lemma step_total : forall all ts0 p ts rs e, (all \/ ~ all) -> srun ts0 p = Ok (ts, rs) -> inv all ts0 p ts ->
    (forall d, In d (placed ts [e]) -> workable trig d) -> few_lines e -> (all -> boxes_allocated e) -> (~ all -> no_snowflake e) ->
    arrays_ok (existsb is_begin p) [e] ->
    (forall a b tsa rsa, p ++ [e] = a ++ b -> srun ts0 a = Ok (tsa, rsa) -> (forall e, In e b -> is_end e = false) ->
      (forall e, In e b -> is_read e = false) \/ exists t, central t /\ forall d, In d (placed tsa b) -> ~ reaches d t) ->
    exists ts' r, sstep ts e = Ok (ts', r) /\ inv all ts0 (p ++ [e]) ts'.
  Proof.
    intros all ts0 p ts rs e Dec R [Ai K Sz Nt Md Bg Ch] Wk F4 Fa Fn Ar Room.
    assert (exists ts' r, sstep ts e = Ok (ts', r) /\ sized (sf_q (ts_sf ts')) /\ all_neat (ts_boxes ts') /\ all_moderate (ts_boxes ts') /\
      (existsb is_begin (p ++ [e]) = true -> 0 <= ts_dirtied ts' <= ts_num ts') /\
      exists a b tsa rsa, p ++ [e] = a ++ b /\ srun ts0 a = Ok (tsa, rsa) /\ (exists rsb, srun tsa b = Ok (ts', rsb)) /\ (forall e, In e b -> is_end e = false) /\
      (forall t, In t (q_dirty (sf_q (ts_sf ts'))) -> exists d, In d (placed tsa b) /\ reaches d t) /\
      ((forall e, In e b -> is_read e = false) -> room None (sf_q (ts_sf ts')))) as (ts' & r & E & Sz' & Nt' & Md' & Bg' & Ch').
    { destruct Ch as (a & b & tsa & rsa & Ep & Ra & (rsb & Rb) & Nb & Db & Ub).
      assert (existsb is_begin (p ++ [e]) = existsb is_begin p || is_begin e) as Eb by (rewrite existsb_app; cbn [existsb]; rewrite orb_false_r; reflexivity).
      destruct e as [act cx cy ang ty lines|ok1 ok2|d|canw canr rows|can roi].
      - (* the symmetry *)
        eexists _, _. split; [reflexivity|]. cbn [ts_sf ts_boxes ts_dirtied ts_num]. split; [auto|]. split; [auto|]. split; [auto|].
        split; [rewrite Eb; cbn [is_begin]; rewrite orb_false_r; exact Bg|].
        exists a, (b ++ [SSym act cx cy ang ty lines]), tsa, rsa. split; [rewrite Ep, app_assoc; reflexivity|]. split; [exact Ra|]. split; [eexists; eapply srun_snoc; [exact Rb|reflexivity]|].
        split; [intros e Ie; apply in_app_or in Ie; destruct Ie as [|[<-|[]]]; auto|]. split.
        + intros t It. destruct (Db t It) as (d & Id & Rd). exists d. split; [apply placed_prefix; exact Id|exact Rd].
        + intros U. apply Ub. intros e Ie. apply U. apply in_or_app. auto.
      - (* begin_atomic *)
        destruct (begin_total G all ts ok1 ok2 Dec Fa Ai Nt Md) as (ts' & E & Nt' & Md'). exists ts', RNone.
        assert (sstep ts (SBegin ok1 ok2) = Ok (ts', RNone)) as Es by (cbn [Dab.sstep]; rewrite E; reflexivity). split; [exact Es|].
        assert (ts_sf ts' = ts_sf ts /\ ts_dirtied ts' = 0) as (Sf & Dd).
        { unfold begin_atomic in E. inv_bind E. destruct (prepare_match _ _ _ E (a_proper _ _ _ Ai)) as (_ & S & D & _). split; [exact S|exact D]. }
        pose proof (sstep_ainv trig paint_mix G all ts _ ts' _ Dec Ai F4 Fa Fn Es) as [I' _]. pose proof (P_SymSafe.i_num _ _ _ _ I') as Num. cbn [P_SymSafe.b_num] in Num.
        rewrite Sf, Dd. split; [auto|]. split; [auto|]. split; [auto|]. split; [lia|].
        exists a, (b ++ [SBegin ok1 ok2]), tsa, rsa. split; [rewrite Ep, app_assoc; reflexivity|]. split; [exact Ra|]. split; [eexists; eapply srun_snoc; [exact Rb|exact Es]|].
        split; [intros e Ie; apply in_app_or in Ie; destruct Ie as [|[<-|[]]]; auto|]. split.
        + intros t It. destruct (Db t It) as (d & Id & Rd). exists d. split; [apply placed_prefix; exact Id|exact Rd].
        + intros U. apply Ub. intros e Ie. apply U. apply in_or_app. auto.
      - (* a dab *)
        assert (forall e, In e (b ++ [SDab d]) -> is_end e = false) as Nb' by (intros e Ie; apply in_app_or in Ie; destruct Ie as [|[<-|[]]]; auto).
        assert (placed tsa (b ++ [SDab d]) = placed tsa b ++ d :: copies_of G ts d) as Pb.
        { rewrite (placed_app trig paint_mix G b [SDab d] tsa ts rsb Rb), placed_one. reflexivity. }
        assert (exists f, room f (sf_q (ts_sf ts)) /\ forall d', In d' (d :: copies_of G ts d) -> avoids f d') as (f & Rf & Af).
        { destruct (Room a (b ++ [SDab d]) tsa rsa) as [U|(t & Ct & At)]; auto; [rewrite Ep, app_assoc; reflexivity| |].
          - exists None. split; [|intros; exact Logic.I]. apply Ub. intros e Ie. apply U. apply in_or_app. auto.
          - exists (Some t). rewrite Pb in At. split.
            + split; [exact Ct|]. intros It. destruct (Db t It) as (d' & Id & Rd). apply (At d'); auto. apply in_or_app. auto.
            + intros d' Id. apply At. apply in_or_app. auto. }
        rewrite placed_one in Wk.
        destruct (draw_total trig G all f ts d Ai) as (ts' & m & E & [W' S' R' N' M']).
        { constructor; auto. apply K. }
        { intros d' Id. split; [apply Wk; exact Id|apply Af; exact Id]. }
        exists ts', (RDab m). assert (sstep ts (SDab d) = Ok (ts', RDab m)) as Es by (cbn [Dab.sstep]; rewrite E; reflexivity). split; [exact Es|].
        split; [auto|]. split; [auto|]. split; [auto|]. split.
        { intros _. pose proof Ai as [I A]. destruct (draw_boxes trig G all ts d ts' m I E A) as (_ & _ & Nn & _ & Mf & Mt).
          pose proof (used_range G all ts I) as Ur. rewrite Nn. destruct m; [destruct (Mt eq_refl) as (-> & _); lia|destruct (Mf eq_refl) as (_ & _ & ->); lia]. }
        exists a, (b ++ [SDab d]), tsa, rsa. split; [rewrite Ep, app_assoc; reflexivity|]. split; [exact Ra|]. split; [eexists; eapply srun_snoc; [exact Rb|exact Es]|].
        split; [exact Nb'|]. destruct (draw_hist trig paint_mix G ts d ts' m [] E) as (_ & _ & out & Hh).
        destruct (draws_dirty _ _ _ _ _ (k_wf _ _ _ _ _ K) Hh) as (_ & D1 & R1). rewrite Pb. split.
        + intros t It. destruct (D1 t It) as [It0|(d' & Id & Rd)].
          * destruct (Db t It0) as (d' & Id & Rd). exists d'. split; [apply in_or_app; auto|exact Rd].
          * exists d'. split; [apply in_or_app; auto|exact Rd].
        + intros U. apply R1, Ub. intros e Ie. apply U. apply in_or_app. auto.
      - (* a read *)
        destruct (read_total op (list Z) (op_steps trig paint_mix) P Q step_PQ canw canr rows (ts_sf ts) K) as (sf & seen & E & D1 & S1).
        eexists _, _. assert (sstep ts (SRead canw canr rows) = Ok (mkTS sf (ts_boxes ts) (ts_num ts) (ts_dirtied ts) (ts_sym ts), RSeen seen)) as Es by (cbn [Dab.sstep]; rewrite E; reflexivity).
        split; [exact Es|]. cbn [ts_sf ts_boxes ts_dirtied ts_num]. split; [unfold sized in *; rewrite S1; exact Sz|]. split; [auto|]. split; [auto|].
        split; [rewrite Eb; cbn [is_begin]; rewrite orb_false_r; exact Bg|].
        exists a, (b ++ [SRead canw canr rows]), tsa, rsa. split; [rewrite Ep, app_assoc; reflexivity|]. split; [exact Ra|]. split; [eexists; eapply srun_snoc; [exact Rb|exact Es]|].
        split; [intros e Ie; apply in_app_or in Ie; destruct Ie as [|[<-|[]]]; auto|]. rewrite D1. split.
        + intros t It. destruct (Db t It) as (d & Id & Rd). exists d. split; [apply placed_prefix; exact Id|exact Rd].
        + intros U. specialize (U (SRead canw canr rows)). discriminate U. apply in_or_app. right. left. reflexivity.
      - (* end_atomic *)
        destruct (flush_total op (list Z) (op_steps trig paint_mix) P Q step_PQ can (ts_sf ts) K) as (sf & E & D1 & S1).
        set (ts1 := mkTS sf (ts_boxes ts) (ts_num ts) (ts_dirtied ts) (ts_sym ts)).
        assert (exists r, sstep ts (SEnd can roi) = Ok (ts1, r)) as (r & Es).
        { cbn [Dab.sstep]. unfold end_atomic. rewrite E. cbn [obind]. destruct roi as [(rects, cap)|]; [|eexists; reflexivity].
          cbn [arrays_ok] in Ar. destruct Ar as ((Bb & Cap) & _). specialize (Bg Bb).
          pose proof Ai as [I _]. pose proof (P_SymSafe.i_num _ _ _ _ I) as Num. pose proof (P_SymSafe.i_cap _ _ _ _ I) as Cp. cbn [P_SymSafe.b_num P_SymSafe.b_cap] in Num, Cp.
          cbn [ts_boxes ts_dirtied]. destruct (write_total (ts_boxes ts) (ts_dirtied ts) rects cap Nt Md) as (w & ->); [lia|lia|lia|].
          cbn [obind]. eexists. reflexivity. }
        exists ts1, r. split; [exact Es|]. cbn [ts1 ts_sf ts_boxes ts_dirtied ts_num]. split; [unfold sized in *; rewrite S1; exact Sz|]. split; [auto|]. split; [auto|].
        split; [rewrite Eb; cbn [is_begin]; rewrite orb_false_r; exact Bg|].
        exists (p ++ [SEnd can roi]), [], ts1, (rs ++ [r]). split; [rewrite app_nil_r; reflexivity|]. split; [eapply srun_snoc; eauto|]. split; [exists []; reflexivity|].
        split; [intros ? []|]. rewrite D1. split; [intros ? []|]. intros _. intros t It. rewrite D1 in It. destruct It. }
    exists ts', r. split; [exact E|]. constructor; auto.
    - eapply sstep_ainv; eauto.
    - assert (forall t o mem mem', Q t o -> P t mem -> process_op trig paint_mix t o mem = Ok mem' -> P t mem') as step.
      { intros t o mem mem' Hq HP H. destruct (step_PQ t o mem Hq HP) as (m2 & E2 & V2). rewrite op_steps_ok in E2. congruence. }
      refine (srun_keeps trig paint_mix G P Q step [e] ts [] ts' [r] _ K _).
      + cbn [ofold fst snd]. rewrite E. reflexivity.
      + intros d Id o tiles t Po ET It. exists d, tiles. auto.
  Qed.

  Lemma arrays_app : forall p bg evs, arrays_ok bg (p ++ evs) -> arrays_ok (bg || existsb is_begin p) evs.
  Proof.
    induction p as [|e p IH]; intros bg evs H; cbn [app existsb]; [rewrite orb_false_r; exact H|]. destruct H as (_ & H).
    rewrite orb_assoc. apply IH. exact H.
  Qed.

  Lemma run_total : forall all ts0 evs p ts rs, (all \/ ~ all) -> srun ts0 p = Ok (ts, rs) -> inv all ts0 p ts ->
    (forall d, In d (placed ts0 (p ++ evs)) -> workable trig d) -> Forall few_lines evs ->
    (all -> Forall boxes_allocated evs) -> (~ all -> Forall no_snowflake evs) -> arrays_ok false (p ++ evs) -> roomy ts0 (p ++ evs) ->
    exists ts' rs', srun ts0 (p ++ evs) = Ok (ts', rs').
  Proof.
    intros all ts0. induction evs as [|e evs IH]; intros p ts rs Dec R Iv Wk F4 Fa Fn Ar Rm.
    - rewrite app_nil_r. eauto.
    - destruct (step_total all ts0 p ts rs e Dec R Iv) as (ts1 & r & E & Iv1).
      + intros d Id. apply Wk. rewrite (placed_app trig paint_mix G p (e :: evs) ts0 ts rs R). apply in_or_app. right.
        apply (placed_prefix [e] evs). exact Id.
      + inversion F4; auto.
      + intros X. specialize (Fa X). inversion Fa; auto.
      + intros X. specialize (Fn X). inversion Fn; auto.
      + apply arrays_app in Ar. cbn [orb] in Ar. cbn [arrays_ok] in *. split; [apply Ar|exact Logic.I].
      + intros a b tsa rsa Eq Ra Nb. apply (Rm a b evs tsa rsa); auto. rewrite app_assoc, <- Eq, <- app_assoc. reflexivity.
      + replace (p ++ e :: evs) with ((p ++ [e]) ++ evs) in * by (rewrite <- app_assoc; reflexivity).
        eapply IH; eauto; [eapply srun_snoc; eauto|inversion F4; auto|intros X; specialize (Fa X); inversion Fa; auto|intros X; specialize (Fn X); inversion Fn; auto].
  Qed.

  (** Every session completes: with normal painting, erasing, lock-alpha and
      pigment, under every symmetry, whatever tiles the backend refuses
      ([SRead]/[SEnd] carry its answers), whichever allocations of transforms fail,
      whatever is read and however often, with or without rectangles being asked
      for.  Missing (hence partial): colorize and posterize, dabs of radius above
      1010 or further out than 2^20, and the narrow band of settings in the gap
      condition. *)
  Theorem C49_session_completes_partial : forall ok junk pix0 ts0 evs,
    tiled_surface_init G ok junk pix0 = Ok ts0 -> canvas pix0 ->
    (forall X Y, valid (pixel_of pix0 X Y)) ->
    (forall d, In d (placed ts0 evs) -> workable trig d) ->
    Forall few_lines evs -> Forall boxes_allocated evs \/ Forall no_snowflake evs ->
    arrays_ok false evs -> roomy ts0 evs ->
    exists ts rs, srun ts0 evs = Ok (ts, rs).
  Proof.
    intros ok junk pix0 ts0 evs I0 C0 V0 Wk F4 Al Ar Rm.
    assert (exists all : Prop, (all \/ ~ all) /\ (all -> Forall boxes_allocated evs) /\ (~ all -> Forall no_snowflake evs)) as (all & Dec & Fa & Fn).
    { destruct Al as [X|X]; [exists True|exists False]; tauto. }
    apply (run_total all ts0 evs [] ts0 [] Dec); auto.
    pose proof (init_ainv G all ok junk pix0 ts0 I0) as Ai.
    unfold tiled_surface_init in I0. inv_bind I0. injection I0 as <-.
    constructor; cbn [ts_sf ts_boxes sf_q ts_dirtied ts_num existsb]; auto.
    - apply fresh_keeps. intros (tx, ty). split; [apply C0|]. intros i j Hi Hj.
      specialize (V0 (64 * tx + i) (64 * ty + j)). unfold pixel_of in V0.
      replace ((64 * tx + i) / 64) with tx in V0 by (apply Z.div_unique with i; lia).
      replace ((64 * ty + j) / 64) with ty in V0 by (apply Z.div_unique with j; lia).
      replace ((64 * tx + i) mod 64) with i in V0 by (apply Z.mod_unique with tx; lia).
      replace ((64 * ty + j) mod 64) with j in V0 by (apply Z.mod_unique with ty; lia). exact V0.
    - exists 0%nat. reflexivity.
    - intros i _. left. exact (box_repeat 32 i).
    - intros i _. change (moderate (box (repeat rect0 32) i)). rewrite box_repeat. apply rect0_moderate.
    - discriminate.
    - eexists [], [], _, []. split; [reflexivity|]. split; [reflexivity|]. split; [exists []; reflexivity|]. split; [intros ? []|].
      split; [intros ? []|]. intros _ t [].
  Qed.

  (** The same said of the calls only, for sessions that do not switch the symmetry on. *)
  Definition no_symmetry (e : sev) : Prop := match e with SSym active _ _ _ _ _ => active = false | _ => True end.

  Lemma update_active : forall ok d d', @update_symmetry_state num32 G ok d = Ok d' -> sd_active d' = sd_active d.
  Proof.
    intros ok d d' H. unfold update_symmetry_state in H. destruct (_ || _); [injection H as <-; auto|]. inv_bind H.
    destruct (if sd_num d <? v then allocate_matrices ok d v else (true, d)) as (good, d1) eqn:Ea.
    assert (sd_active d1 = sd_active d) as A1.
    { destruct (sd_num d <? v); [|injection Ea as _ <-; auto]. unfold allocate_matrices in Ea. destruct (_ && _); injection Ea as _ <-; auto. }
    destruct good; cbn [negb] in H; [|injection H as <-; auto]. inv_bind H. destruct v0 as [ms|]; [|injection H as <-; auto].
    inv_bind H. injection H as <-. exact A1.
  Qed.

  Lemma draw_sym : forall ts d ts' m, draw_dab G ts d = Ok (ts', m) -> ts_sym ts' = ts_sym ts.
  Proof. intros ts d ts' m H. apply (draw_hist trig paint_mix G ts d ts' m [] H). Qed.

  Lemma step_inactive : forall ts e ts' r, sd_active (ts_sym ts) = false -> no_symmetry e -> sstep ts e = Ok (ts', r) -> sd_active (ts_sym ts') = false.
  Proof.
    intros ts e ts' r A N H. destruct e; cbn [Dab.sstep no_symmetry] in *.
    - injection H as <- _. exact N.
    - inv_bind H. injection H as <- _. unfold begin_atomic in E. inv_bind E. unfold prepare_bounding_boxes in E. inv_bind E. inv_bind E.
      destruct v2 as ((?, ?), ?). inv_bind E. injection E as <-. cbn [ts_sym]. rewrite (update_active _ _ _ E0). exact A.
    - inv_bind H. destruct v as (ts1, m). injection H as <- _. rewrite (draw_sym _ _ _ _ E). exact A.
    - inv_bind H. destruct v as (sf, seen). injection H as <- _. exact A.
    - inv_bind H. destruct v as (ts1, w). injection H as <- _. unfold end_atomic in E. inv_bind E.
      destruct roi as [(rects, cap)|]; [inv_bind E|]; injection E as <- _; exact A.
  Qed.

  Lemma copies_inactive : forall ts d, sd_active (ts_sym ts) = false -> copies_of G ts d = [].
  Proof. intros ts d A. unfold copies_of, symmetry_pass. rewrite A. destruct (prepare_op d) as [[o|]| |]; reflexivity. Qed.

  Lemma placed_inactive : forall evs ts d, sd_active (ts_sym ts) = false -> Forall no_symmetry evs -> In d (placed ts evs) -> In (SDab d) evs.
  Proof.
    induction evs as [|e evs IH]; intros ts d A F I; [destruct I|]. inversion F; subst. cbn [HistoryProofs.placed] in I. apply in_app_or in I. destruct I as [I|I].
    - destruct e; try destruct I. + subst. left. reflexivity. + rewrite copies_inactive in H by auto. destruct H.
    - right. destruct (Dab.sstep _ _ _ _ _) as [(ts1, r)| |] eqn:E; [|destruct I|destruct I]. apply (IH ts1); auto. eapply step_inactive; eauto.
  Qed.

  Lemma run_inactive : forall evs ts rs ts' rs', sd_active (ts_sym ts) = false -> Forall no_symmetry evs ->
    ofold (fun (a : tsurf * list sres) (e : sev) => let* (ts, r) := sstep (fst a) e in Ok (ts, snd a ++ [r])) evs (ts, rs) = Ok (ts', rs') ->
    sd_active (ts_sym ts') = false.
  Proof.
    induction evs as [|e evs IH]; intros ts rs ts' rs' A F H; [cbn in H; injection H as <- _; exact A|].
    apply srun_cons in H. destruct H as (ts1 & r & E & H). inversion F; subst. apply (IH ts1 (rs ++ [r]) ts' rs'); auto. eapply step_inactive; eauto.
  Qed.

  Theorem C49_without_symmetry_partial : forall ok junk pix0 ts0 evs,
    tiled_surface_init G ok junk pix0 = Ok ts0 -> canvas pix0 ->
    (forall X Y, valid (pixel_of pix0 X Y)) ->
    Forall no_symmetry evs -> (forall d, In (SDab d) evs -> workable trig d) ->
    Forall few_lines evs -> Forall boxes_allocated evs \/ Forall no_snowflake evs ->
    arrays_ok false evs ->
    ((forall e, In e evs -> is_read e = false) \/ exists t, central t /\ forall d, In (SDab d) evs -> ~ reaches d t) ->
    exists ts rs, srun ts0 evs = Ok (ts, rs).
  Proof.
    intros ok junk pix0 ts0 evs I0 C0 V0 N Wk F4 Al Ar Rm.
    assert (sd_active (ts_sym ts0) = false) as A0.
    { unfold tiled_surface_init in I0. inv_bind I0. injection I0 as <-. cbn [ts_sym]. unfold default_symmetry_data in E.
      destruct (allocate_matrices _ _ _) as (good, d1) eqn:Ea.
      assert (sd_active d1 = false) as A1 by (unfold allocate_matrices in Ea; destruct (_ && _); injection Ea as _ <-; auto).
      destruct good; [rewrite (update_active _ _ _ E)|injection E as <-]; exact A1. }
    apply (C49_session_completes_partial ok junk pix0 ts0 evs); auto.
    - intros d Id. apply Wk. apply (placed_inactive evs ts0); auto.
    - intros a b c ts rs -> Ra Nb. destruct Rm as [U|(t & Ct & At)]; [left|right].
      + intros e Ie. apply U. apply in_or_app. right. apply in_or_app. auto.
      + exists t. split; auto. intros d Id. apply At. apply in_or_app. right. apply in_or_app. left.
        rewrite !Forall_app in N. destruct N as (Na & Nb' & _). apply (placed_inactive b ts); auto. exact (run_inactive a ts0 [] ts rs A0 Na Ra).
  Qed.
End C49.

(** Every stroke of pigment dabs of whole coordinates and radii completes,
    whatever the backend refuses and whatever allocations fail. *)
Lemma pigment_workable : forall x y r, Z.abs x <= 1048576 -> Z.abs y <= 1048576 -> 1 <= r <= 1010 ->
  workable flat (pigment_dab (f_of_Z x) (f_of_Z y) (f_of_Z r)).
Proof.
  intros x y r Hx Hy Hr. destruct (C48_surface_hypotheses x y r Hx Hy) as (Pd & Rg); [lia|].
  destruct (f_of_Z_exact r) as (Vr & _); [lia|]. destruct f1_val as (V1 & F1). destruct f0_val as (V0 & F0).
  constructor; auto; cbn [pigment_dab d_radius d_hard d_soft d_pnum d_lock d_paint]; change value with (@b2r 24 128).
  - rewrite Vr. apply IZR_le. lia.
  - right. rewrite V1, V0. rewrite Rmin_left, Rmax_left by lra. rewrite Rabs_pos_eq; lra.
  - split; [exact F0|]. change value with (@b2r 24 128). rewrite V0. lra.
  - left. rewrite V0. lra.
Qed.
Lemma blank_pixels : forall X Y, pixel_of blank X Y = mkPx 0 0 0 0.
Proof.
  intros X Y. unfold pixel_of, pixel_at, blank. assert (forall n i, nth n (repeat 0 i) 0 = 0) as K.
  { intros n i. revert n. induction i as [|i IH]; intros [|n]; cbn; auto. }
  rewrite !K. reflexivity.
Qed.
Example C49_case : forall (dabs : list (Z * Z * Z)) ok1 ok2 ok3 junk can ts0,
  (forall x y r, In (x, y, r) dabs -> Z.abs x <= 1048576 /\ Z.abs y <= 1048576 /\ 1 <= r <= 1010) ->
  tiled_surface_init no_turn ok1 junk blank = Ok ts0 ->
  exists ts rs, srun flat paint_mix no_turn ts0
    (SBegin ok2 ok3 :: map (fun '(x, y, r) => SDab (pigment_dab (f_of_Z x) (f_of_Z y) (f_of_Z r))) dabs ++ [SEnd can (Some ([rect0], 1))]) = Ok (ts, rs).
Proof.
  intros dabs ok1 ok2 ok3 junk can ts0 A I0.
  set (mk := fun '(x, y, r) => SDab (pigment_dab (f_of_Z x) (f_of_Z y) (f_of_Z r))).
  assert (forall e, In e (map mk dabs) -> exists x y r, e = SDab (pigment_dab (f_of_Z x) (f_of_Z y) (f_of_Z r)) /\ In (x, y, r) dabs) as M.
  { intros e I. apply in_map_iff in I. destruct I as (((x, y), r) & <- & I). exists x, y, r. auto. }
  apply (C49_without_symmetry_partial flat no_turn ok1 junk blank); auto.
  - exact blank_canvas.
  - intros X Y. rewrite blank_pixels. unfold valid, full; cbn. lia.
  - apply Forall_forall. intros e [<-|I]; [exact Logic.I|]. apply in_app_or in I. destruct I as [I|[<-|[]]]; [|exact Logic.I].
    destruct (M e I) as (x & y & r & -> & _). exact Logic.I.
  - intros d [I|I]; [discriminate I|]. apply in_app_or in I. destruct I as [I|[I|[]]]; [|discriminate I].
    destruct (M _ I) as (x & y & r & E & Id). assert (d = pigment_dab (f_of_Z x) (f_of_Z y) (f_of_Z r)) as -> by congruence.
    destruct (A x y r Id) as (? & ? & ?). apply pigment_workable; auto.
  - apply Forall_forall. intros e [<-|I]; [exact Logic.I|]. apply in_app_or in I. destruct I as [I|[<-|[]]]; [|exact Logic.I].
    destruct (M e I) as (x & y & r & -> & _). exact Logic.I.
  - right. apply Forall_forall. intros e [<-|I]; [exact Logic.I|]. apply in_app_or in I. destruct I as [I|[<-|[]]]; [|exact Logic.I].
    destruct (M e I) as (x & y & r & -> & _). exact Logic.I.
  - cbn [arrays_ok]. split; [exact Logic.I|]. cbn [orb is_begin]. clear - M. induction (map mk dabs) as [|e l IH]; cbn [app arrays_ok].
    + split; [split; [reflexivity|cbn; lia]|exact Logic.I].
    + destruct (M e (or_introl eq_refl)) as (x & y & r & -> & _). split; [exact Logic.I|]. cbn [is_begin orb]. apply IH. intros e I. apply M. right. auto.
  - left. intros e [<-|I]; [reflexivity|]. apply in_app_or in I. destruct I as [I|[<-|[]]]; [|reflexivity].
    destruct (M e I) as (x & y & r & -> & _). reflexivity.
Qed.

(** one tile that nothing reaches is enough *)
Lemma roomy_untouched : forall trig G ts0 evs t, central t -> (forall d, In d (HistoryProofs.placed trig paint_mix G ts0 evs) -> ~ reaches d t) ->
  roomy trig G ts0 evs.
Proof.
  intros trig G ts0 evs t Ct At a b c ts rs -> Ra _. right. exists t. split; [exact Ct|]. intros d Id. apply At.
  rewrite (placed_app trig paint_mix G a (b ++ c) ts0 ts rs Ra). apply in_or_app. right. apply placed_prefix. exact Id.
Qed.

(** A mirrored dab, a read and a request for rectangles: all hypotheses hold. *)
Definition dab_eqb (a b : dab) : bool :=
  P_Endless.f_eqb (d_x a) (d_x b) && P_Endless.f_eqb (d_y a) (d_y b) && P_Endless.f_eqb (d_radius a) (d_radius b) &&
  P_Endless.f_eqb (d_r a) (d_r b) && P_Endless.f_eqb (d_g a) (d_g b) && P_Endless.f_eqb (d_b a) (d_b b) &&
  P_Endless.f_eqb (d_opaque a) (d_opaque b) && P_Endless.f_eqb (d_hard a) (d_hard b) && P_Endless.f_eqb (d_soft a) (d_soft b) &&
  P_Endless.f_eqb (d_alpha a) (d_alpha b) && P_Endless.f_eqb (d_aspect a) (d_aspect b) && P_Endless.f_eqb (d_angle a) (d_angle b) &&
  P_Endless.f_eqb (d_lock a) (d_lock b) && P_Endless.f_eqb (d_colorize a) (d_colorize b) && P_Endless.f_eqb (d_poster a) (d_poster b) &&
  P_Endless.f_eqb (d_pnum a) (d_pnum b) && P_Endless.f_eqb (d_paint a) (d_paint b).
Lemma dab_eq : forall a b, dab_eqb a b = true -> a = b.
Proof.
  intros a b H. unfold dab_eqb in H. repeat (apply andb_prop in H; let X := fresh in destruct H as [H X]; apply P_Endless.f_eq in X).
  apply P_Endless.f_eq in H. destruct a as [a0 a1 a2 a3 a4 a5 a6 a7 a8 a9 a10 a11 a12 a13 a14 a15 a16], b as [b0 b1 b2 b3 b4 b5 b6 b7 b8 b9 b10 b11 b12 b13 b14 b15 b16]. cbn [d_x d_y d_radius d_r d_g d_b d_opaque d_hard d_soft d_alpha d_aspect d_angle d_lock d_colorize d_poster d_pnum d_paint] in *. subst. reflexivity.
Qed.
Definition mirrored : list sev :=
  [SSym true (f_of_Z 50) (f_of_Z 0) f0 Vertical 2; SBegin true true;
   SDab (pigment_dab (f_of_Z 64) (f_of_Z 4) (f_of_Z 2)); SRead (fun _ => true) (fun _ => true) [[(0, 0); (1, 0)]];
   SEnd (fun _ => true) (Some ([rect0; rect0], 2))].
Definition copy_dab : dab := moved (pigment_dab (f_of_Z 64) (f_of_Z (-4)) (f_of_Z 2)) (f_of_Z 64) (f_of_Z (-4)) (f_of_Z (-180)).
Lemma placed_no_dabs : forall trig G b a ts, (forall d, ~ In (SDab d) b) -> HistoryProofs.placed trig paint_mix G ts (a ++ b) = HistoryProofs.placed trig paint_mix G ts a.
Proof.
  intros trig G b. induction a as [|e a IH]; intros ts N; cbn [app HistoryProofs.placed].
  - revert ts. induction b as [|e b IH]; intros ts; [reflexivity|]. cbn [HistoryProofs.placed].
    destruct e; try (exfalso; eapply N; left; reflexivity); cbn [app]; (destruct (Dab.sstep _ _ _ _ _) as [(ts1, r)| |]; [|reflexivity|reflexivity]);
      apply IH; intros d I; apply (N d); right; exact I.
  - destruct (Dab.sstep _ _ _ _ _) as [(ts1, r)| |]; [|reflexivity|reflexivity]. rewrite IH by exact N. reflexivity.
Qed.
Lemma mirrored_placed :
  match tiled_surface_init no_turn true 0 blank with
  | Ok ts => match HistoryProofs.placed flat paint_mix no_turn ts (firstn 3 mirrored) with
             | [d1; d2] => dab_eqb d1 (pigment_dab (f_of_Z 64) (f_of_Z 4) (f_of_Z 2)) && dab_eqb d2 copy_dab
             | _ => false end
  | _ => false end = true.
Proof. vm_compute. reflexivity. Qed.
Lemma mirrored_tiles :
  (match dab_tiles (f_of_Z 64) (f_of_Z 4) (f_of_Z 2), dab_tiles (f_of_Z 64) (f_of_Z (-4)) (f_of_Z 2) with
   | Ok l1, Ok l2 => forallb (fun t : tile => negb (fst t =? 5)) (l1 ++ l2)
   | _, _ => false end) = true.
Proof. vm_compute. reflexivity. Qed.
Example C49_mirror_case : forall ts0, tiled_surface_init no_turn true 0 blank = Ok ts0 ->
  (forall d, In d (HistoryProofs.placed flat paint_mix no_turn ts0 mirrored) -> workable flat d) /\
  Forall few_lines mirrored /\ Forall no_snowflake mirrored /\ arrays_ok false mirrored /\ roomy flat no_turn ts0 mirrored /\
  exists ts rs, srun flat paint_mix no_turn ts0 mirrored = Ok (ts, rs).
Proof.
  intros ts0 I0. pose proof mirrored_placed as Mp. rewrite I0 in Mp.
  set (d1 := pigment_dab (f_of_Z 64) (f_of_Z 4) (f_of_Z 2)) in *.
  assert (HistoryProofs.placed flat paint_mix no_turn ts0 mirrored = [d1; copy_dab]) as Ep.
  { change mirrored with (firstn 3 mirrored ++ skipn 3 mirrored).
    rewrite placed_no_dabs by (intros d [X|[X|[]]]; discriminate X).
    destruct (HistoryProofs.placed flat paint_mix no_turn ts0 (firstn 3 mirrored)) as [|a [|b [|c l]]]; [discriminate Mp|discriminate Mp| |discriminate Mp].
    apply andb_prop in Mp. destruct Mp as [X Y]. apply dab_eq in X. apply dab_eq in Y. rewrite X, Y. reflexivity. }
  assert (forall d, In d (HistoryProofs.placed flat paint_mix no_turn ts0 mirrored) -> workable flat d) as Wk.
  { rewrite Ep. intros d [<-|[<-|[]]]; [apply pigment_workable; lia|].
    destruct (pigment_workable 64 (-4) 2) as [[? ? ? ? ? ? ?] ? ? ? ? ?]; try lia. constructor; auto. constructor; auto. }
  assert (roomy flat no_turn ts0 mirrored) as Rm.
  { apply (roomy_untouched flat no_turn ts0 mirrored (5, 5)); [unfold central; cbn; lia|]. rewrite Ep. pose proof mirrored_tiles as Mt.
    destruct (dab_tiles (f_of_Z 64) (f_of_Z 4) (f_of_Z 2)) as [l1| |] eqn:E1; [|discriminate Mt|discriminate Mt].
    destruct (dab_tiles (f_of_Z 64) (f_of_Z (-4)) (f_of_Z 2)) as [l2| |] eqn:E2; [|discriminate Mt|discriminate Mt].
    rewrite forallb_forall in Mt.
    intros d [<-|[<-|[]]] (tiles & Et & It).
    - assert (tiles = l1) as -> by (apply BrushProofs.Ok_inj; rewrite <- Et; exact E1). specialize (Mt (5, 5) (in_or_app _ _ _ (or_introl It))). discriminate Mt.
    - assert (tiles = l2) as -> by (apply BrushProofs.Ok_inj; rewrite <- Et; exact E2). specialize (Mt (5, 5) (in_or_app _ _ _ (or_intror It))). discriminate Mt. }
  assert (Forall few_lines mirrored) as F4 by (repeat constructor; cbn; lia).
  assert (Forall no_snowflake mirrored) as Fn by (repeat constructor; cbn; discriminate).
  assert (arrays_ok false mirrored) as Ar by (cbn; repeat split; lia).
  split; [exact Wk|]. split; [exact F4|]. split; [exact Fn|]. split; [exact Ar|]. split; [exact Rm|].
  apply (C49_session_completes_partial flat no_turn true 0 blank); auto; [exact blank_canvas|].
  intros X Y. rewrite blank_pixels. unfold valid, full; cbn. lia.
Qed.

Print Assumptions C49_session_completes_partial.
Print Assumptions C49_without_symmetry_partial.
