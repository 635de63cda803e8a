(** Properties C05, C11: what a history of dabs leaves at each pixel of the
    plane.  Bit exact; [trig] is sin and cos of a dab's angle, [mix] the spectral
    colour mixing, [G] sin and cos of the symmetry transforms. *)
From Verif Require Import Base F32 F32Proofs Queue QueueProofs Blend Mask MaskProofs OpaProofs RrProofs
  MaskFloatProofs FarProofs Rect Arith Symmetry Plumb PlumbProofs P_Plumb Dab DabProofs HistoryProofs.
From Coq Require Import Reals Lra.
From Flocq Require Import Core.Core IEEE754.BinarySingleNaN.
From Verif Require SymmetryProofs.
From Verif Require Import KeepProofs SurfProofs RoiProofs P_Mask P_Rect.
Local Open Scope Z_scope.

(** A canvas: every tile has 64*64 pixels of four 16-bit numbers. *)
Definition canvas (pix : tile -> list Z) : Prop := forall t, tile_ok (pix t).
(** pixels within two million of the origin *)
Definition in_reach (X Y : Z) : Prop := Z.abs X <= 2097152 /\ Z.abs Y <= 2097152.
(** a dab of ordinary size and position (see [regular]) whose offset from the
    corner of the tile [t], if it touches it, is an exact float *)
Definition fine (trig : trig_oracle) (t : tile) (d : dab) : Prop :=
  regular trig d /\ (reaches d t -> exact_in t d).

(** ** Position enters only relative to the pixel *)
(** moving the dab by whole pixels (without rounding) moves the paint *)
Definition plus_exact (v v' : f32) (k : Z) : Prop := value v' = (value v + IZR k)%R.
(** not the negative zero (which the subtraction of coordinates can tell apart) *)
Definition no_negative_zero (v : f32) : Prop := value v = 0%R -> Bsign v = false.

Lemma sub_zero_sign : forall a b : f32, fin a -> fin b -> b2r a = b2r b -> no_negative_zero a \/ b2r b <> 0%R ->
  (Rabs (b2r a - b2r b) <= bpow radix2 127)%R -> Bsign (fsub a b) = false.
Proof.
  intros a b Fa Fb E N H. destruct (fsub_correct a b Fa Fb H) as (_ & _ & S). rewrite S.
  destruct (Rcompare_spec (b2r a - b2r b) 0) as [X|X|X]; try lra.
  destruct (Req_dec (b2r b) 0) as [Z|Z].
  - destruct N as [N|N]; [|contradiction]. rewrite N; [reflexivity|]. unfold value. unfold b2r in *. lra.
  - assert (a = b) as -> by (apply same_float; auto; lra). destruct (Bsign b); reflexivity.
Qed.

Lemma fsub_moved : forall a b c d : f32, fin a -> fin b -> fin c -> fin d ->
  (b2r a - b2r b = b2r c - b2r d)%R -> (Rabs (b2r a - b2r b) <= bpow radix2 127)%R ->
  no_negative_zero a \/ b2r b <> 0%R -> no_negative_zero c \/ b2r d <> 0%R ->
  fsub a b = fsub c d.
Proof.
  intros a b c d Fa Fb Fc Fd E H N1 N2.
  assert (Rabs (b2r c - b2r d) <= bpow radix2 127)%R as H' by (rewrite <- E; exact H).
  destruct (fsub_correct a b Fa Fb H) as (E1 & F1 & S1).
  destruct (fsub_correct c d Fc Fd H') as (E2 & F2 & S2).
  apply B2R_Bsign_inj; auto.
  - rewrite E1, E2, E. reflexivity.
  - destruct (Req_dec (b2r a - b2r b) 0) as [Z|Z].
    + rewrite !sub_zero_sign; auto; lra.
    + rewrite S1, S2, <- E. destruct (Rcompare_spec (b2r a - b2r b) 0); auto; lra.
Qed.

Lemma axis_moved : forall v v' X k, bd v 20 -> bd v' 20 -> Z.abs X <= 2097152 -> Z.abs (X + k) <= 2097152 ->
  plus_exact v v' k -> no_negative_zero v -> no_negative_zero v' ->
  fsub v' (f_of_Z (X + k)) = fsub v (f_of_Z X) /\
  fsub (fadd (f_of_Z (X + k)) fhalf) v' = fsub (fadd (f_of_Z X) fhalf) v.
Proof.
  intros v v' X k (Fv & Hv) (Fv' & Hv') HX HXk E N N'. unfold plus_exact in E. change value with (@b2r 24 128) in E.
  change (bpow radix2 20) with 1048576%R in Hv, Hv'. apply Rabs_le_inv in Hv. apply Rabs_le_inv in Hv'.
  destruct (f_of_Z_exact X) as (EX & FX); [lia|]. destruct (f_of_Z_exact (X + k)) as (EXk & FXk); [lia|].
  assert (BX : (-2097152 <= IZR X <= 2097152)%R) by (split; [apply (IZR_le (-2097152))|apply (IZR_le X 2097152)]; lia).
  assert (BXk : (-2097152 <= IZR (X + k) <= 2097152)%R) by (split; [apply (IZR_le (-2097152))|apply (IZR_le _ 2097152)]; lia).
  assert (big : forall z, (Rabs z <= 8000000 -> Rabs z <= bpow radix2 127)%R).
  { intros z Hz. apply Rle_trans with (bpow radix2 23); [change (bpow radix2 23) with 8388608%R; lra|apply bpow_le; lia]. }
  pose proof (plus_IZR X k) as PK. split.
  - apply fsub_moved; auto.
    + rewrite EXk, EX, E. lra.
    + rewrite EXk. apply big, Rabs_le. lra.
  - assert (H64 : forall q, (Z.abs q <= 2097152)%Z -> b2r (fadd (f_of_Z q) fhalf) = (IZR q + / 2)%R /\ fin (fadd (f_of_Z q) fhalf)).
    { intros q Hq. destruct (f_of_Z_exact q) as (E1 & F1); [lia|]. destruct fhalf_val as (VH & FH).
      assert (-2097152 <= IZR q <= 2097152)%R by (split; [apply (IZR_le (-2097152))|apply (IZR_le q 2097152)]; lia).
      destruct (fadd_spec (f_of_Z q) fhalf F1 FH) as (E2 & F2); [rewrite E1, VH; apply big, Rabs_le; lra|].
      split; auto. rewrite E2, E1, VH. apply rnd32_id.
      replace (IZR q + / 2)%R with (IZR (2 * q + 1) * bpow radix2 (-1))%R.
      - apply rep32_scaled; lia.
      - rewrite plus_IZR, mult_IZR. simpl. lra. }
    destruct (H64 X HX) as (A1 & A2). destruct (H64 (X + k) HXk) as (B1 & B2).
    assert (odd : forall q, (IZR q + / 2 <> 0)%R).
    { intros q Z. assert (IZR (2 * q + 1) = 0)%R by (rewrite plus_IZR, mult_IZR; lra). apply eq_IZR_R0 in H. lia. }
    apply fsub_moved; auto.
    + rewrite A1, B1, E. lra.
    + rewrite B1. apply big, Rabs_le. lra.
    + left. intros Z. exfalso. change value with (@b2r 24 128) in Z. rewrite B1 in Z. apply (odd (X + k)). exact Z.
    + left. intros Z. exfalso. change value with (@b2r 24 128) in Z. rewrite A1 in Z. apply (odd X). exact Z.
Qed.

(** The same dab at a position that differs by whole pixels paints the moved
    pixels in the same way: only the position of the pixel relative to the dab
    matters. *)
Theorem C05_translation : forall trig mix d x' y' k l X Y p,
  between (-1048576) (d_x d) 1048576 -> between (-1048576) (d_y d) 1048576 ->
  between (-1048576) x' 1048576 -> between (-1048576) y' 1048576 ->
  plus_exact (d_x d) x' k -> plus_exact (d_y d) y' l ->
  no_negative_zero (d_x d) -> no_negative_zero (d_y d) -> no_negative_zero x' -> no_negative_zero y' ->
  in_reach X Y -> in_reach (X + k) (Y + l) ->
  paint trig mix (moved d x' y' (d_angle d)) (X + k) (Y + l) p = paint trig mix d X Y p.
Proof.
  intros trig mix d x' y' k l X Y p Bx By Bx' By' Ex Ey N1 N2 N3 N4 (RX & RY) (RX' & RY').
  apply between_bd in Bx, By, Bx', By'.
  unfold paint. destruct d as [dx dy rad r g b opq hard soft alpha asp ang lock col post pn pnt].
  cbn [d_x d_y d_angle] in *. unfold moved. cbn [d_x d_y d_radius d_r d_g d_b d_opaque d_hard d_soft d_alpha d_aspect d_angle d_lock d_colorize d_poster d_pnum d_paint].
  unfold prepare_op. cbn [d_x d_y d_radius d_r d_g d_b d_opaque d_hard d_soft d_alpha d_aspect d_angle d_lock d_colorize d_poster d_pnum d_paint].
  destruct (posterize_levels pn); cbn [obind]; auto.
  destruct (_ || _); cbn [obind]; auto.
  destruct (scale15 (clamp01 r)); cbn [obind]; auto. destruct (scale15 (clamp01 g)); cbn [obind]; auto.
  destruct (scale15 (clamp01 b)); cbn [obind]; auto.
  unfold paint_op. cbn [o_x o_y o_radius o_hard o_soft o_aspect o_angle].
  destruct (axis_moved dx x' X k) as (X1 & X2); auto. destruct (axis_moved dy y' Y l) as (Y1 & Y2); auto.
  unfold mask_value, rr_at. destruct (trig ang) as (cs, sn).
  unfold calculate_rr_antialiased, calculate_rr. rewrite X1, X2, Y1, Y2. reflexivity.
Qed.

Section Statements.
  Variables (trig : trig_oracle) (mix : mix_oracle) (G : trigops num32).
  Notation srun := (srun trig mix G).
  Notation placed := (placed trig mix G).
  Notation paint := (paint trig mix).

  (** *** C05 *)
  (** After end_atomic, pixel (X, Y) is what is obtained from the initial pixel
      by painting all dabs of the history on it, one after another: [placed] are
      the dabs drawn, in order, with the copies the symmetry adds; [paint d X Y]
      mentions neither tiles nor flushing.  The history may contain any number
      of atomic operations, reads and changes of symmetry.
      Missing for the full claim: the exactness in [fine] (without it the claim
      is false, below) and dabs that are not [regular]. *)
  Theorem C05_pixel_history_partial : forall ok junk pix0 ts0 evs can roi ts rs X Y,
    tiled_surface_init G ok junk pix0 = Ok ts0 -> canvas pix0 ->
    srun ts0 (evs ++ [SEnd can roi]) = Ok (ts, rs) ->
    in_reach X Y ->
    let t := (X / 64, Y / 64) in
    (forall e, In e (evs ++ [SEnd can roi]) -> sgranted t e) ->
    (forall d, In d (placed ts0 evs) -> fine trig t d) ->
    ofold (fun p d => paint d X Y p) (placed ts0 evs) (pixel_of pix0 X Y) = Ok (pixel_of (sf_pix (ts_sf ts)) X Y).
  Proof.
    intros ok junk pix0 ts0 evs can roi ts rs X Y I0 C0 R (BX & BY) t Gr F.
    unfold tiled_surface_init in I0. inv_bind I0. injection I0 as <-.
    set (ts0 := mkTS _ _ _ _ _) in *.
    destruct (srun_app _ _ _ _ _ _ _ _ R) as (ts1 & rs1 & R1 & _).
    destruct (srun_hist _ _ _ _ _ _ _ R) as (out & H).
    rewrite (hist_app _ _ _ _ _ _ _ _ R1) in H.
    assert (hist trig mix G ts1 [SEnd can roi] = [End can]) as HE.
    { cbn [hist ev_of]. destruct (sstep _ _ _ _ _) as [[? ?]| |]; reflexivity. }
    rewrite HE in H.
    pose proof (C05_flush_paints_in_order op (list Z) (op_steps trig mix) pix0 _ can _ out t H) as P.
    unfold painted in P. rewrite drawn_hist in P.
    unfold pixel_of. apply (fold_px trig mix X Y (placed ts0 evs)); auto.
    - intros d Id. destruct (F d Id) as (F1 & F2). split; [exact F1|]. split; [|exact F2].
      eapply placed_ok; [exact R1|exact Id].
    - apply P. intros e Ie. apply (granted_hist trig mix G t (evs ++ [SEnd can roi]) ts0 Gr).
      rewrite (hist_app _ _ _ _ _ _ _ _ R1), HE. exact Ie.
  Qed.

  (** Reading in the middle (get_color) sees the same: every tile it looks at
      shows, at each of its pixels, all dabs drawn so far. *)
  Theorem C05_read_sees_pixels_partial : forall ok junk pix0 ts0 evs canw canr rows ts rs seen X Y v,
    tiled_surface_init G ok junk pix0 = Ok ts0 -> canvas pix0 ->
    srun ts0 (evs ++ [SRead canw canr rows]) = Ok (ts, rs ++ [RSeen seen]) ->
    in_reach X Y ->
    let t := (X / 64, Y / 64) in
    In (t, v) seen ->
    (forall e, In e (evs ++ [SRead canw canr rows]) -> sgranted t e) ->
    (forall d, In d (placed ts0 evs) -> fine trig t d) ->
    ofold (fun p d => paint d X Y p) (placed ts0 evs) (pixel_of pix0 X Y) = Ok (pixel_at v (X mod 64) (Y mod 64)).
  Proof.
    intros ok junk pix0 ts0 evs canw canr rows ts rs seen X Y v I0 C0 R (BX & BY) t Iv Gr F.
    unfold tiled_surface_init in I0. inv_bind I0. injection I0 as <-.
    set (ts0 := mkTS _ _ _ _ _) in *.
    destruct (srun_app _ _ _ _ _ _ _ _ R) as (ts1 & rs1 & R1 & R2).
    destruct (srun_cons _ _ _ _ _ _ _ _ _ R2) as (ts2 & r2 & S & R3). cbn in R3. injection R3 as -> R3.
    apply app_inj_tail in R3. destruct R3 as (-> & ->).
    cbn [Dab.sstep] in S. inv_bind S. destruct v1 as (sf, seen'). injection S as <- ->. clear R R2.
    destruct (srun_hist _ _ _ _ _ _ _ R1) as (out & H).
    destruct (run_gen op (list Z) (op_steps trig mix) (hist trig mix G ts0 evs) (fresh op (list Z) pix0) [] (ts_sf ts1) out t (good_fresh _ _ _ _)) with (2 := H) as [G1 V1].
    { intros e Ie. apply (granted_hist trig mix G t evs ts0) with (2 := Ie). intros e' I'. apply Gr, in_or_app; auto. }
    destruct (read_spec op (list Z) (op_steps trig mix) canw canr rows _ _ _ (good_wf _ _ _ _ G1) E0) as (_ & _ & _ & S1 & _).
    pose proof (S1 t v Iv (Gr (SRead canw canr rows) (in_or_app _ [SRead canw canr rows] _ (or_intror (in_eq _ []))))) as P. rewrite V1 in P.
    unfold view in P. cbn [fresh sf_q sf_pix] in P. rewrite pend_new in P. cbn [ofold obind app] in P. rewrite drawn_hist in P.
    unfold pixel_of. apply (fold_px trig mix X Y (placed ts0 evs)); auto.
    intros d Id. destruct (F d Id) as (F1 & F2). split; [exact F1|]. split; [|exact F2].
    eapply placed_ok; [exact R1|exact Id].
  Qed.

  (** Without symmetry the dabs placed are those of the history. *)
  Definition drawn_dabs (evs : list sev) : list dab :=
    flat_map (fun e => match e with SDab d => [d] | _ => [] end) evs.
  Definition no_symmetry (e : sev) : Prop := match e with SSym active _ _ _ _ _ => active = false | _ => True end.

  Lemma inactive_pass : forall (d : symdata num32) n x y a, sd_active d = false -> exists u, symmetry_pass G d n x y a = Ok ([], u).
  Proof. intros d n x y a H. unfold symmetry_pass. rewrite H. cbn [andb]. eauto. Qed.

  Lemma update_active : forall ok (d d' : symdata num32), update_symmetry_state G ok d = Ok d' -> sd_active d' = sd_active d.
  Proof.
    intros ok d d' H. unfold update_symmetry_state in H. destruct (negb (sd_changes d) || states_equal (sd_cur d) (sd_pend d)); [congruence|].
    inv_bind H. destruct (if sd_num d <? v then allocate_matrices ok d v else (true, d)) as (good, d1) eqn:E1.
    assert (sd_active d1 = sd_active d) as A.
    { destruct (sd_num d <? v); [|congruence]. unfold allocate_matrices in E1. destruct (ok && _); injection E1 as _ <-; reflexivity. }
    destruct (negb good); [congruence|]. inv_bind H. destruct v0 as [ms|].
    - inv_bind H. injection H as <-. exact A.
    - injection H as <-. exact A.
  Qed.

  Lemma placed_plain : forall evs ts, sd_active (ts_sym ts) = false -> Forall no_symmetry evs ->
    forall r, srun ts evs = Ok r -> placed ts evs = drawn_dabs evs.
  Proof.
    assert (forall evs ts rs ts' rs', sd_active (ts_sym ts) = false -> Forall no_symmetry evs ->
      ofold (fun (a : tsurf * list sres) (e : sev) => let* (ts, r) := sstep trig mix G (fst a) e in Ok (ts, snd a ++ [r])) evs (ts, rs) = Ok (ts', rs') ->
      placed ts evs = drawn_dabs evs) as K.
    { induction evs as [|e evs IH]; intros ts rs ts' rs' A F H; [reflexivity|].
      apply srun_cons in H. destruct H as (ts1 & r & S & H). inversion F as [|? ? Fe Fs]; subst.
      cbn [HistoryProofs.placed drawn_dabs flat_map]. rewrite S. f_equal.
      - destruct e; auto. unfold copies_of. destruct (prepare_op d) as [[o|]| |]; auto.
        destruct (inactive_pass (ts_sym ts) (ts_num ts) (d_x d) (d_y d) (d_angle d) A) as (u & ->). reflexivity.
      - eapply IH; eauto. destruct e; cbn [Dab.sstep] in S.
        + injection S as <- _. cbn. exact Fe.
        + inv_bind S. injection S as <- _. unfold begin_atomic in E. inv_bind E. unfold prepare_bounding_boxes in E.
          inv_bind E. inv_bind E. destruct v2 as ((bs, n), dd). inv_bind E. injection E as <-. cbn [ts_sym] in *.
          rewrite (update_active _ _ _ E0). exact A.
        + inv_bind S. destruct v as (ts2, m). injection S as <- _. destruct (draw_hist trig mix _ _ _ _ _ [] E) as (_ & -> & _). exact A.
        + inv_bind S. destruct v as (sf, seen). injection S as <- _. exact A.
        + inv_bind S. destruct v as (ts2, rr). injection S as <- _. unfold end_atomic in E. inv_bind E. destruct roi as [(rects, cap)|].
          * inv_bind E. injection E as <- _. exact A.
          * injection E as <- _. exact A. }
    intros evs ts A F (ts', rs') H. eapply K; eauto.
  Qed.

  Theorem C05_pixels_without_symmetry_partial : forall ok junk pix0 ts0 evs can roi ts rs X Y,
    tiled_surface_init G ok junk pix0 = Ok ts0 -> canvas pix0 ->
    Forall no_symmetry evs ->
    srun ts0 (evs ++ [SEnd can roi]) = Ok (ts, rs) ->
    in_reach X Y ->
    let t := (X / 64, Y / 64) in
    (forall e, In e (evs ++ [SEnd can roi]) -> sgranted t e) ->
    (forall d, In d (drawn_dabs evs) -> fine trig t d) ->
    ofold (fun p d => paint d X Y p) (drawn_dabs evs) (pixel_of pix0 X Y) = Ok (pixel_of (sf_pix (ts_sf ts)) X Y).
  Proof.
    intros ok junk pix0 ts0 evs can roi ts rs X Y I0 C0 N R B t Gr F.
    assert (sd_active (ts_sym ts0) = false) as A0.
    { unfold tiled_surface_init in I0. inv_bind I0. injection I0 as <-. cbn [ts_sym].
      destruct (SymmetryProofs.default_wf G ok) as (d & Ed & _ & Ad & _). congruence. }
    destruct (srun_app _ _ _ _ _ _ _ _ R) as (ts1 & rs1 & R1 & _).
    pose proof (placed_plain evs ts0 A0 N _ R1) as PE.
    pose proof (C05_pixel_history_partial ok junk pix0 ts0 evs can roi ts rs X Y I0 C0 R B Gr) as K.
    rewrite PE in K. apply K. exact F.
  Qed.
End Statements.

(** *** C11 *)
(** pixel (X, Y) is further than radius + 1 from the centre along an axis *)
Definition beyond (d : dab) (X Y : Z) : Prop :=
  (value (d_radius d) + 1 <= Rabs (IZR X + / 2 - value (d_x d)))%R \/
  (value (d_radius d) + 1 <= Rabs (IZR Y + / 2 - value (d_y d)))%R.

Section Far.
  Variables (trig : trig_oracle) (mix : mix_oracle) (G : trigops num32).

  (** A pixel beyond the reach of every dab of a history keeps its value, at
      every moment of it, whatever the backend grants.  (Here positions relative
      to a tile may round.) *)
  Theorem C11_far_pixels_unchanged_partial : forall ok junk pix0 ts0 evs ts rs X Y,
    tiled_surface_init G ok junk pix0 = Ok ts0 -> canvas pix0 ->
    srun trig mix G ts0 evs = Ok (ts, rs) ->
    (forall d, In d (placed trig mix G ts0 evs) -> regular trig d /\ beyond d X Y) ->
    pixel_of (sf_pix (ts_sf ts)) X Y = pixel_of pix0 X Y.
  Proof.
    intros ok junk pix0 ts0 evs ts rs X Y I0 C0 R A.
    unfold tiled_surface_init in I0. inv_bind I0. injection I0 as <-. set (ts0 := mkTS _ _ _ _ _) in *.
    set (P := fun (t : tile) mem => tile_ok mem /\
                (t = (X / 64, Y / 64) -> pixel_at mem (X mod 64) (Y mod 64) = pixel_of pix0 X Y)).
    set (Q := fun (t : tile) o => op_ok trig o /\ (exists tiles, op_tiles o = Ok tiles /\ In t tiles) /\
                (away X (o_x o) (o_radius o) \/ away Y (o_y o) (o_radius o))).
    assert (forall t o mem mem', Q t o -> P t mem -> process_op trig mix t o mem = Ok mem' -> P t mem') as St.
    { intros t o mem mem' (O & (tiles & ET & It) & Aw) (L & Px) H.
      destruct (process_op_px trig mix t o mem mem' L H) as (L' & _). split; [exact L'|]. intros ->.
      rewrite <- Px by reflexivity.
      eapply op_far_px; eauto; try (apply Z.lt_succ_r; apply Z.mod_pos_bound; lia).
      - pose proof (Z.mod_pos_bound X 64). lia.
      - pose proof (Z.mod_pos_bound Y 64). lia.
      - cbn [fst snd]. rewrite <- !Z.div_mod by lia. exact Aw. }
    assert (keeps op (list Z) P Q (ts_sf ts)) as K.
    { eapply (srun_keeps trig mix G P Q St evs ts0 [] ts rs R).
      - apply fresh_keeps. intros t. split; [apply C0|]. intros ->. reflexivity.
      - intros d Id o tiles t EP ET It. destruct (A d Id) as (Rg & By). destruct (prepare_fields d o EP) as (E1 & E2 & E3 & _).
        split; [eapply regular_op; eauto|]. split; [eauto|]. unfold away. rewrite E1, E2, E3. exact By. }
    apply (k_pix _ _ _ _ _ K (X / 64, Y / 64)). reflexivity.
  Qed.


  (** Conversely: a pixel that is not beyond the reach of an accepted dab lies in
      one of the tiles the dab is queued on, and in the rectangle recorded for
      it; recording succeeds for rectangles of moderate size. *)
  Theorem C11_reached_pixels_recorded_partial : forall d o X Y,
    regular trig d -> prepare_op d = Ok (Some o) -> ~ beyond d X Y ->
    (exists tiles, dab_tiles (d_x d) (d_y d) (d_radius d) = Ok tiles /\ In (X / 64, Y / 64) tiles) /\
    (forall r r', proper r -> update_dirty_bbox r (d_x d) (d_y d) (d_radius d) = Ok r' -> inside r' X Y /\ sub r r') /\
    (forall r, proper r -> moderate r -> exists r', update_dirty_bbox r (d_x d) (d_y d) (d_radius d) = Ok r').
  Proof.
    intros d o X Y Rg EP NB. pose proof (regular_op trig d o Rg EP) as O. destruct (prepare_fields d o EP) as (E1 & E2 & E3 & _).
    assert (op_area o X Y) as A.
    { destruct (Z_le_dec (lo_px (o_x o) (o_radius o)) X) as [A1|A1];
      [destruct (Z_le_dec X (hi_px (o_x o) (o_radius o))) as [A2|A2];
      [destruct (Z_le_dec (lo_px (o_y o) (o_radius o)) Y) as [A3|A3];
      [destruct (Z_le_dec Y (hi_px (o_y o) (o_radius o))) as [A4|A4]; [split; lia|]|]|]|];
      (exfalso; apply NB; unfold beyond; change value with (@b2r 24 128); rewrite <- E1, <- E2, <- E3;
       apply (not_area_away trig o X Y O); intros (A & B); lia). }
    split; [|split].
    - destruct (area_tiles trig o X Y O A) as (ts & ET & I). exists ts. split; [|exact I]. rewrite <- E1, <- E2, <- E3. exact ET.
    - intros r r' P H. rewrite <- E1, <- E2, <- E3 in H. destruct (bbox_spec trig o r r' O P H) as (_ & S & C). split; auto.
    - intros r P M. rewrite <- E1, <- E2, <- E3. destruct O as [D R]. pose proof D as [Dx Dy (Fr & Hr) _ _ _ _].
      assert (Hr' : (/ 16 <= b2r (o_radius o) <= 65536)%R) by lra.
      destruct (bbox_axis_ok _ _ Dx Fr Hr') as (Ex & Bx1 & Bx2). destruct (bbox_axis_ok _ _ Dy Fr Hr') as (Ey & By1 & By2).
      unfold update_dirty_bbox. rewrite Ex, Ey. cbn [obind].
      assert (small_point (lo_px (o_x o) (o_radius o)) (lo_px (o_y o) (o_radius o))) as S1 by (unfold small_point, LIM; lia).
      assert (small_point (hi_px (o_x o) (o_radius o)) (hi_px (o_y o) (o_radius o))) as S2 by (unfold small_point, LIM; lia).
      destruct (C13_include_point_is_smallest r _ _ P M S1) as (r1 & -> & So1 & M1 & _). cbn [obind].
      destruct (C13_include_point_is_smallest r1 _ _ (solid_proper _ So1) M1 S2) as (r2 & -> & _). eauto.
  Qed.
End Far.

(** ** Concrete cases *)
(** angle 0 only; the colour mixing is not used *)
Definition flat : trig_oracle := fun _ => (f1, f0).
Definition no_mix : mix_oracle := fun _ _ _ _ _ => (f0, f0, f0).
Definition no_turn : trigops num32 := trig32 (fun _ => f1) (fun _ => f0).
Definition blank (t : tile) : list Z := repeat 0 (Z.to_nat 16384).
Lemma blank_canvas : canvas blank.
Proof. intros t. unfold tile_ok, blank. rewrite repeat_length. lia. Qed.

(** a round white dab *)
Definition round_dab (x y radius hardness : f32) : dab :=
  mkDab x y radius f1 f1 f1 f1 hardness f0 f1 f1 f0 f0 f0 f0 f0 f0.
Definition one_dab (d : dab) : list sev := [SBegin true true; SDab d].
Definition finish : sev := SEnd (fun _ => true) None.
(** final opacity of a pixel *)
Definition alpha_after (evs : list sev) (X Y : Z) : option Z :=
  match tiled_surface_init no_turn true 0 blank with
  | Ok ts => match srun flat no_mix no_turn ts (evs ++ [finish]) with
             | Ok (ts, _) => Some (pa (pixel_of (sf_pix (ts_sf ts)) X Y)) | _ => None end
  | _ => None
  end.

(** C05 without the exactness of positions is false: two dabs exactly one pixel
    apart ([xa] and [xb] = [xa] + 1, both floats), two pixels exactly one pixel
    apart, so in the same position relative to their dab - but the first pixel
    lies in tile -1, where x + 64 rounds; its opacity differs by one unit. *)
Definition xa : f32 := flit 31 8388608.
Definition xb : f32 := flit 8388639 8388608.
Definition soft_dab (x : f32) : dab := round_dab x (flit 21 2) f3 (flit 38 1000).
Theorem C05_tile_boundary_refuted : plus_exact xa xb 1 /\
  exists a b, alpha_after (one_dab (soft_dab xa)) (-1) 10 = Some a /\
              alpha_after (one_dab (soft_dab xb)) 0 10 = Some b /\ a <> b.
Proof.
  split.
  - assert (B2SF xa = SpecFloat.S754_finite false 16252928 (-42)) as Ea by (vm_compute; reflexivity).
    assert (B2SF xb = SpecFloat.S754_finite false 8388639 (-23)) as Eb by (vm_compute; reflexivity).
    unfold plus_exact, value. destruct xa as [| | |s m e H]; try discriminate. destruct xb as [| | |s' m' e' H']; try discriminate.
    injection Ea as -> -> ->. injection Eb as -> -> ->. unfold B2R, F2R. cbn [Fnum Fexp cond_Zopp].
    change (bpow radix2 (-42)) with (/ 4398046511104)%R. change (bpow radix2 (-23)) with (/ 8388608)%R. lra.
  - exists 9725, 9724. split; [exact eq_refl|]. split; [exact eq_refl|]. lia.
Qed.

(** The hypotheses of C05 and C11 are met: every round dab at an integer position
    is [fine] on every tile, ... *)
Example C05_fine_case : forall x y r t, Z.abs x <= 1048576 -> Z.abs y <= 1048576 -> 1 <= r <= 65536 ->
  fine flat t (round_dab (f_of_Z x) (f_of_Z y) (f_of_Z r) f1).
Proof.
  intros x y r t Hx Hy Hr. set (d := round_dab _ _ _ _).
  assert (K : forall z, Z.abs z <= 16777216 -> fin (f_of_Z z) /\ b2r (f_of_Z z) = IZR z).
  { intros z Hz. destruct (f_of_Z_exact z Hz). auto. }
  assert (I : forall a b z, a <= z <= b -> (IZR a <= IZR z <= IZR b)%R) by (intros; split; apply IZR_le; lia).
  destruct (K x) as (Fx & Vx); [lia|]. destruct (K y) as (Fy & Vy); [lia|]. destruct (K r) as (Fr & Vr); [lia|].
  destruct f1_val as (V1 & F1). destruct f0_val as (V0 & F0).
  pose proof (I (-1048576) 1048576 x ltac:(lia)) as Ix. pose proof (I (-1048576) 1048576 y ltac:(lia)) as Iy. pose proof (I 1 65536 r Hr) as Ir.
  assert (Bx : bd (f_of_Z x) 20) by (split; auto; rewrite Vx; change (bpow radix2 20) with 1048576%R; apply Rabs_le; lra).
  assert (By : bd (f_of_Z y) 20) by (split; auto; rewrite Vy; change (bpow radix2 20) with 1048576%R; apply Rabs_le; lra).
  split.
  - constructor; cbn [d round_dab d_x d_y d_radius d_hard d_soft d_aspect d_angle]; unfold between, finite, value; change (@B2R 24 128) with (@b2r 24 128).
    + split; auto. rewrite Vx. lra. + split; auto. rewrite Vy. lra. + split; auto. rewrite Vr. lra.
    + split; [exact F1|]. right. rewrite V1, rpow126. change 1%R with (bpow radix2 0). apply bpow_le. lia.
    + exact F0. + split; [exact F1|]. rewrite V1. lra.
    + cbn [flat]. rewrite V0, V1.
      repeat split; try assumption; try lra. replace (1 * 1 + 0 * 0 - 1)%R with 0%R by ring. rewrite Rabs_R0. lra.
  - intros (tiles & ET & It). assert (Hr' : (/ 16 <= b2r (f_of_Z r) <= 65536)%R) by (rewrite Vr; lra).
    destruct (dab_tiles_ok _ _ _ Bx By Fr Hr') as (ts & ET' & Mem). cbn [d round_dab d_x d_y d_radius] in ET. rewrite ET' in ET. injection ET as ->.
    apply Mem in It. destruct It as (Itx & Ity).
    assert (Ax : forall z t, Z.abs z <= 1048576 -> bd (f_of_Z z) 20 -> lo_px (f_of_Z z) (f_of_Z r) / 64 <= t <= hi_px (f_of_Z z) (f_of_Z r) / 64 ->
      b2r (fsub (f_of_Z z) (f_of_Z (64 * t))) = (b2r (f_of_Z z) - IZR (64 * t))%R).
    { intros z u Hz Bz Hu. pose proof (tile_near _ _ _ Bz Fr Hr' Hu) as N. destruct (K z) as (Fz & Vz); [lia|].
      rewrite Vz, <- minus_IZR, <- abs_IZR in N. apply le_IZR in N.
      destruct (K (64 * u)) as (Fu & Vu); [lia|]. destruct (fsub_spec _ _ Fz Fu) as (E & _).
      - rewrite Vz, Vu, <- minus_IZR, <- abs_IZR. apply Rle_trans with (bpow radix2 17); [|apply bpow_le; lia].
        apply (IZR_le _ 131072). lia.
      - rewrite E, Vz, Vu, <- minus_IZR. apply rnd32_id. rewrite <- (Rmult_1_r (IZR (z - 64 * u))). change 1%R with (bpow radix2 0).
        apply rep32_scaled; lia. }
    split; cbn [d round_dab d_x d_y]; change value with (@b2r 24 128); apply Ax; auto.
Qed.

(** ... and two dabs across the border of tiles 0 and 1, with a read between
    them, run without trouble. *)
Definition two_dabs : list sev :=
  [SBegin true true; SDab (round_dab (f_of_Z 64) (f_of_Z 4) (f_of_Z 2) f1);
   SRead (fun _ => true) (fun _ => true) [[(0, 0); (1, 0)]];
   SDab (round_dab (f_of_Z 66) (f_of_Z 4) (f_of_Z 1) (flit 1 2))].
Example C05_case : alpha_after two_dabs 63 4 = Some 32768 /\ alpha_after two_dabs 66 4 = Some 18642 /\
  alpha_after two_dabs 61 4 = Some 0.
Proof. split; [exact eq_refl|]. split; exact eq_refl. Qed.

Print Assumptions C05_pixel_history_partial.
Print Assumptions C05_read_sees_pixels_partial.
Print Assumptions C05_pixels_without_symmetry_partial.
Print Assumptions C05_translation.
Print Assumptions C05_tile_boundary_refuted.
Print Assumptions C11_far_pixels_unchanged_partial.
Print Assumptions C11_reached_pixels_recorded_partial.
