(** Property C18: the in-memory surface isolates its tiles. *)
From Verif Require Import Base F32 F32Proofs FixedSurface.
From Coq Require Import Reals Lra.
From Flocq Require Import Core.Core IEEE754.BinarySingleNaN.
Local Open Scope Z_scope.

(** ** A user of the surface: a sequence of tile requests; during each request
    arbitrary reads and writes at word offsets of the tile. *)
Inductive access := Rd (o : Z) | Wr (o v : Z).
Record request := mkRequest { rq_tx : Z; rq_ty : Z; rq_acc : list access }.
Definition acc_ok (a : access) : Prop := match a with Rd o | Wr o _ => 0 <= o < TILE_WORDS end.

(** running it on the model; collects the values read *)
Fixpoint run_accesses (s : fixed) (p : tile_ptr) (l : list access) : outcome (fixed * list Z) :=
  match l with
  | [] => Ok (s, [])
  | Rd o :: l => let* v := load s p o in let* (s', vs) := run_accesses s p l in Ok (s', v :: vs)
  | Wr o v :: l => let* s := store s p o v in run_accesses s p l
  end.
Fixpoint run_requests (s : fixed) (l : list request) : outcome (fixed * list Z) :=
  match l with
  | [] => Ok (s, [])
  | r :: l =>
      let* (s, vs) := run_accesses s (request_start s (rq_tx r) (rq_ty r)) (rq_acc r) in
      let* (s', vs') := run_requests (request_end s (rq_tx r) (rq_ty r)) l in
      Ok (s', vs ++ vs')
  end.

(** ** The specification: a plane of tiles; tiles outside the canvas of
    [tw] x [th] tiles are blank and forget what is written. *)
Definition plane := Z -> Z -> Z -> Z.
Definition on_canvas (tw th tx ty : Z) : bool := (0 <=? tx) && (tx <? tw) && (0 <=? ty) && (ty <? th).

(** accesses to one tile with content [t] *)
Fixpoint spec_accesses (t : Z -> Z) (l : list access) : (Z -> Z) * list Z :=
  match l with
  | [] => (t, [])
  | Rd o :: l => let (t', vs) := spec_accesses t l in (t', t o :: vs)
  | Wr o v :: l => spec_accesses (fun a => if a =? o then v else t a) l
  end.
Fixpoint spec_requests (tw th : Z) (c : plane) (l : list request) : plane * list Z :=
  match l with
  | [] => (c, [])
  | r :: l =>
      let tx := rq_tx r in let ty := rq_ty r in
      if on_canvas tw th tx ty then
        let (t, vs) := spec_accesses (c tx ty) (rq_acc r) in
        let (c', vs') := spec_requests tw th (fun x y => if (x =? tx) && (y =? ty) then t else c x y) l in
        (c', vs ++ vs')
      else
        let (_, vs) := spec_accesses (fun _ => 0) (rq_acc r) in
        let (c', vs') := spec_requests tw th c l in (c', vs ++ vs')
  end.

(** ** Well-formed surfaces *)
Definition good (s : fixed) : Prop :=
  0 < fs_tiles_w s /\ 0 < fs_tiles_h s /\ fs_tiles_w s * fs_tiles_h s <= INT_MAX /\
  fs_words s = fs_tiles_w s * fs_tiles_h s * TILE_WORDS.
Definition addr (s : fixed) (tx ty : Z) : Z := (fs_tiles_w s * ty + tx) * TILE_WORDS.

Lemma outside_spec : forall s tx ty, outside s tx ty = negb (on_canvas (fs_tiles_w s) (fs_tiles_h s) tx ty).
Proof.
  intros. unfold outside, on_canvas. destruct (Z.leb_spec (fs_tiles_w s) tx), (Z.leb_spec (fs_tiles_h s) ty),
    (Z.ltb_spec tx 0), (Z.ltb_spec ty 0), (Z.leb_spec 0 tx), (Z.ltb_spec tx (fs_tiles_w s)), (Z.leb_spec 0 ty), (Z.ltb_spec ty (fs_tiles_h s));
    try lia; reflexivity.
Qed.
Lemma on_canvas_true : forall tw th tx ty, on_canvas tw th tx ty = true <-> 0 <= tx < tw /\ 0 <= ty < th.
Proof.
  intros. unfold on_canvas. rewrite !andb_true_iff, !Z.leb_le, !Z.ltb_lt. tauto.
Qed.

Lemma size_t_small : forall z, 0 <= z < 18446744073709551616 -> size_t z = z.
Proof. intros. unfold size_t. apply Z.mod_small. auto. Qed.

Lemma start_in : forall s tx ty, good s -> on_canvas (fs_tiles_w s) (fs_tiles_h s) tx ty = true ->
  request_start s tx ty = InBuffer (addr s tx ty).
Proof.
  intros s tx ty (G1 & G2 & G3 & G4) H. unfold request_start. rewrite outside_spec, H. cbn [negb].
  apply on_canvas_true in H. unfold INT_MAX in G3. unfold addr, TILE_BYTES, TILE_WORDS.
  assert (fs_tiles_w s * ty + tx < fs_tiles_w s * fs_tiles_h s) by nia.
  assert (0 <= fs_tiles_w s * ty) by nia.
  rewrite (size_t_small (fs_tiles_w s * _)) by nia. rewrite (size_t_small (tx * _)) by nia.
  rewrite (size_t_small (fs_tiles_w s * _ * ty)) by nia. rewrite size_t_small by nia.
  f_equal. symmetry. apply Z.div_unique with 0; nia.
Qed.
Lemma start_out : forall s tx ty, on_canvas (fs_tiles_w s) (fs_tiles_h s) tx ty = false -> request_start s tx ty = NullTile.
Proof. intros. unfold request_start. rewrite outside_spec, H. reflexivity. Qed.

(** The memory ranges of canvas tiles lie inside the allocation and are disjoint. *)
Theorem C18_tiles_are_disjoint : forall s tx ty tx' ty' o o', good s ->
  on_canvas (fs_tiles_w s) (fs_tiles_h s) tx ty = true -> on_canvas (fs_tiles_w s) (fs_tiles_h s) tx' ty' = true ->
  0 <= o < TILE_WORDS -> 0 <= o' < TILE_WORDS ->
  exists w w', request_start s tx ty = InBuffer w /\ request_start s tx' ty' = InBuffer w' /\
    0 <= w + o < fs_words s /\ (w + o = w' + o' -> tx = tx' /\ ty = ty' /\ o = o').
Proof.
  intros s tx ty tx' ty' o o' G C C' Ho Ho'. exists (addr s tx ty), (addr s tx' ty').
  split; [apply start_in; auto|]. split; [apply start_in; auto|].
  destruct G as (G1 & G2 & G3 & G4). apply on_canvas_true in C, C'. rewrite G4. unfold addr, TILE_WORDS in *.
  split; [nia|]. intros E.
  assert (fs_tiles_w s * ty + tx = fs_tiles_w s * ty' + tx') as E1 by lia.
  assert (ty = ty') by nia. subst. lia.
Qed.

(** the surface holds the plane [c] *)
Definition holds (s : fixed) (c : plane) : Prop :=
  (forall tx ty o, on_canvas (fs_tiles_w s) (fs_tiles_h s) tx ty = true -> 0 <= o < TILE_WORDS ->
     fs_buffer s (addr s tx ty + o) = c tx ty o) /\
  (forall o, 0 <= o < TILE_WORDS -> fs_null s o = 0).
Definition same_shape (s s' : fixed) : Prop :=
  fs_tiles_w s' = fs_tiles_w s /\ fs_tiles_h s' = fs_tiles_h s /\ fs_words s' = fs_words s.

Lemma addr_range : forall s tx ty o, good s -> on_canvas (fs_tiles_w s) (fs_tiles_h s) tx ty = true -> 0 <= o < TILE_WORDS ->
  0 <= addr s tx ty + o < fs_words s.
Proof.
  intros s tx ty o G C Ho. destruct (C18_tiles_are_disjoint s tx ty tx ty o o G C C Ho Ho) as (w & w' & E & _ & R & _).
  rewrite start_in in E by auto. injection E as <-. auto.
Qed.
Lemma addr_inj : forall s tx ty tx' ty' o o', good s ->
  on_canvas (fs_tiles_w s) (fs_tiles_h s) tx ty = true -> on_canvas (fs_tiles_w s) (fs_tiles_h s) tx' ty' = true ->
  0 <= o < TILE_WORDS -> 0 <= o' < TILE_WORDS -> addr s tx ty + o = addr s tx' ty' + o' -> tx = tx' /\ ty = ty' /\ o = o'.
Proof.
  intros s tx ty tx' ty' o o' G C C' Ho Ho' E.
  destruct (C18_tiles_are_disjoint s tx ty tx' ty' o o' G C C' Ho Ho') as (w & w' & E1 & E2 & _ & I).
  rewrite start_in in E1, E2 by auto. injection E1 as <-. injection E2 as <-. auto.
Qed.

Lemma accesses_in : forall l s c tx ty, good s -> on_canvas (fs_tiles_w s) (fs_tiles_h s) tx ty = true -> Forall acc_ok l -> holds s c ->
  exists s', run_accesses s (InBuffer (addr s tx ty)) l = Ok (s', snd (spec_accesses (c tx ty) l)) /\ same_shape s s' /\
    holds s' (fun x y => if (x =? tx) && (y =? ty) then fst (spec_accesses (c tx ty) l) else c x y).
Proof.
  induction l as [|[o|o v] l IH]; intros s c tx ty G C F H.
  - exists s. split; [reflexivity|]. split; [unfold same_shape; auto|]. destruct H as (H & N). split; auto. intros x y o Cx Ho.
    destruct (Z.eqb_spec x tx), (Z.eqb_spec y ty); cbn [andb]; subst; cbn [spec_accesses fst]; auto.
  - inversion F; subst. cbn [run_accesses spec_accesses]. unfold load.
    pose proof (addr_range s tx ty o G C H2) as R.
    destruct (Z.leb_spec 0 (addr s tx ty + o)); [|lia]. destruct (Z.ltb_spec (addr s tx ty + o) (fs_words s)); [|lia]. cbn [andb obind].
    destruct (IH s c tx ty G C H3 H) as (s' & -> & Sh & H'). cbn [obind]. exists s'.
    revert H'. destruct (spec_accesses (c tx ty) l) as [t vs]. cbn [fst snd]. intros H'. split; [|auto]. do 3 f_equal. apply H; auto.
  - inversion F; subst. cbn [run_accesses spec_accesses]. unfold store.
    pose proof (addr_range s tx ty o G C H2) as R.
    destruct (Z.leb_spec 0 (addr s tx ty + o)); [|lia]. destruct (Z.ltb_spec (addr s tx ty + o) (fs_words s)); [|lia]. cbn [andb obind].
    set (s1 := mkFixed _ _ _ _ _ _ _).
    set (c1 := fun x y : Z => if (x =? tx) && (y =? ty) then (fun a => if a =? o then v else c tx ty a) else c x y).
    destruct (IH s1 c1 tx ty G C H3) as (s' & E & Sh & H').
    { destruct H as (H & N). split; [|exact N]. intros x y a Cx Ha. unfold s1. cbn [fs_buffer]. change (addr (mkFixed _ _ _ _ _ _ _) x y) with (addr s x y).
      unfold c1. change (on_canvas (fs_tiles_w s) (fs_tiles_h s) x y = true) in Cx.
      destruct (Z.eqb_spec (addr s x y + a) (addr s tx ty + o)) as [E|E].
      - destruct (addr_inj s x y tx ty a o) as (-> & -> & ->); auto. rewrite !Z.eqb_refl. cbn [andb]. rewrite Z.eqb_refl. reflexivity.
      - rewrite H by auto. destruct (Z.eqb_spec x tx), (Z.eqb_spec y ty); cbn [andb]; auto. subst. destruct (Z.eqb_spec a o); [subst; lia|auto]. }
    assert (c1 tx ty = fun a => if a =? o then v else c tx ty a) as Ec by (unfold c1; rewrite !Z.eqb_refl; reflexivity).
    rewrite Ec in E, H'. exists s'. split; [exact E|]. split; [exact Sh|]. destruct H' as (H1' & N'). split; auto.
    intros x y a Cx Ha. rewrite (H1' x y a Cx Ha). unfold c1. destruct (Z.eqb_spec x tx), (Z.eqb_spec y ty); cbn [andb]; auto.
Qed.

Lemma accesses_out : forall l s t, (forall o, 0 <= o < TILE_WORDS -> fs_null s o = t o) -> Forall acc_ok l ->
  exists s', run_accesses s NullTile l = Ok (s', snd (spec_accesses t l)) /\ same_shape s s' /\ fs_buffer s' = fs_buffer s.
Proof.
  induction l as [|[o|o v] l IH]; intros s t N F.
  - exists s. repeat split; auto.
  - inversion F; subst. cbn [run_accesses spec_accesses]. unfold load. cbn in H1.
    destruct (Z.leb_spec 0 o); [|lia]. destruct (Z.ltb_spec o TILE_WORDS); [|lia]. cbn [andb obind].
    destruct (IH s t N H2) as (s' & -> & Sh & B). cbn [obind]. exists s'. destruct (spec_accesses t l). cbn [snd]. rewrite N by auto. auto.
  - inversion F; subst. cbn [run_accesses spec_accesses]. unfold store. cbn in H1.
    destruct (Z.leb_spec 0 o); [|lia]. destruct (Z.ltb_spec o TILE_WORDS); [|lia]. cbn [andb obind].
    destruct (IH (mkFixed (fs_tiles_w s) (fs_tiles_h s) (fs_width s) (fs_height s) (fs_words s) (fs_buffer s) (fun a => if a =? o then v else fs_null s a))
                 (fun a => if a =? o then v else t a)) as (s' & E & Sh & B); auto.
    { intros a Ha. cbn [fs_null]. destruct (a =? o); auto. }
    exists s'. auto.
Qed.


(** Any sequence of requests on a well-formed surface succeeds, reads what the
    plane holds and leaves the surface holding the plane of the specification. *)
Theorem C18_requests_refine_plane : forall l s c, good s -> holds s c -> Forall (fun r => Forall acc_ok (rq_acc r)) l ->
  exists s', run_requests s l = Ok (s', snd (spec_requests (fs_tiles_w s) (fs_tiles_h s) c l)) /\
    good s' /\ holds s' (fst (spec_requests (fs_tiles_w s) (fs_tiles_h s) c l)).
Proof.
  induction l as [|r l IH]; intros s c G H F.
  - exists s. auto.
  - inversion F as [|? ? Fr Fl]; subst. cbn [run_requests spec_requests].
    destruct (on_canvas (fs_tiles_w s) (fs_tiles_h s) (rq_tx r) (rq_ty r)) eqn:C.
    + rewrite start_in by auto. destruct (accesses_in (rq_acc r) s c _ _ G C Fr H) as (s1 & -> & (S1 & S2 & S3) & H1). cbn [obind].
      assert (request_end s1 (rq_tx r) (rq_ty r) = s1) as ->.
      { unfold request_end. rewrite outside_spec, S1, S2, C. reflexivity. }
      assert (good s1) as G1 by (unfold good; rewrite S1, S2, S3; auto).
      revert H1. destruct (spec_accesses (c (rq_tx r) (rq_ty r)) (rq_acc r)) as [t vs]. cbn [fst snd]. intros H1.
      destruct (IH s1 _ G1 H1 Fl) as (s2 & E & G2 & H2). rewrite S1, S2 in E, H2. rewrite E. cbn [obind]. exists s2.
      destruct (spec_requests _ _ _ l) as [c' vs']. auto.
    + rewrite start_out by auto. destruct H as (H & N).
      destruct (accesses_out (rq_acc r) s (fun _ => 0) N Fr) as (s1 & -> & (S1 & S2 & S3) & B). cbn [obind].
      set (s2 := request_end s1 (rq_tx r) (rq_ty r)).
      assert (s2 = mkFixed (fs_tiles_w s1) (fs_tiles_h s1) (fs_width s1) (fs_height s1) (fs_words s1) (fs_buffer s1) (fun _ => 0)) as E2.
      { unfold s2, request_end. rewrite outside_spec, S1, S2, C. reflexivity. }
      assert (good s2) as G2 by (rewrite E2; unfold good; cbn [fs_tiles_w fs_tiles_h fs_words]; rewrite S1, S2, S3; auto).
      assert (holds s2 c) as H2.
      { rewrite E2. split; cbn [fs_tiles_w fs_tiles_h fs_buffer fs_null]; auto. intros tx ty o C' Ho. unfold addr. cbn [fs_tiles_w]. rewrite S1, B. apply H; auto. congruence. }
      destruct (spec_accesses (fun _ => 0) (rq_acc r)) as [t vs]. cbn [snd].
      destruct (IH s2 c G2 H2 Fl) as (s3 & E & G3 & H3).
      replace (fs_tiles_w s2) with (fs_tiles_w s) in E, H3 by (rewrite E2; auto).
      replace (fs_tiles_h s2) with (fs_tiles_h s) in E, H3 by (rewrite E2; auto).
      rewrite E. cbn [obind]. exists s3. destruct (spec_requests _ _ c l) as [c' vs']. auto.
Qed.

(** What the specification says, spelled out. *)
Theorem C18_isolation : forall tw th c l c' vs, spec_requests tw th c l = (c', vs) ->
  forall x y, (forall r, In r l -> ~ (rq_tx r = x /\ rq_ty r = y /\ on_canvas tw th x y = true)) -> c' x y = c x y.
Proof.
  intros tw th c l. revert c. induction l as [|r l IH]; intros c c' vs E x y H.
  - injection E as <- _. reflexivity.
  - cbn [spec_requests] in E. destruct (on_canvas tw th (rq_tx r) (rq_ty r)) eqn:C.
    + destruct (spec_accesses _ _) as [t v1]. destruct (spec_requests _ _ _ l) as [c2 v2] eqn:E2. injection E as <- _.
      rewrite (IH _ _ _ E2 x y) by (intros; apply H; right; auto).
      destruct (Z.eqb_spec x (rq_tx r)), (Z.eqb_spec y (rq_ty r)); cbn [andb]; auto. exfalso. apply (H r); [left; auto|]. subst. auto.
    + destruct (spec_accesses _ _) as [t v1]. destruct (spec_requests _ _ _ l) as [c2 v2] eqn:E2. injection E as <- _.
      apply (IH _ _ _ E2 x y). intros. apply H. right. auto.
Qed.

(** ** Creation *)
Lemma d_of_f_fin : forall x : f32, fin x -> b2r (d_of_f x) = b2r x /\ fin (d_of_f x).
Proof. intros. destruct (d_of_f_exact x H). auto. Qed.

Lemma tiles_for_ok : forall w, 0 < w <= 16777216 ->
  exists t, tiles_for w = Ok t /\ 64 * (t - 1) < w <= 64 * t.
Proof.
  intros w Hw. unfold tiles_for, TILE_PX.
  destruct (f_of_Z_exact w) as (Vw & Fw); [lia|]. destruct (f_of_Z_exact 64) as (V6 & F6); [lia|].
  assert (IZR w / 64 = IZR w * bpow radix2 (-6))%R as Eq by (change (bpow radix2 (-6)) with (/ 64)%R; reflexivity).
  assert (0 <= IZR w <= 16777216)%R as Rw by (split; apply IZR_le; lia).
  destruct (fdiv_spec (f_of_Z w) (f_of_Z 64) Fw) as (Vq & Fq).
  { rewrite V6. lra. } { rewrite Vw, V6, Rabs_pos_eq by lra. apply Rle_trans with 16777216%R; [lra|].
    change 16777216%R with (bpow radix2 24). apply bpow_le. lia. }
  rewrite Vw, V6, Eq, rnd32_id in Vq by (apply rep32_scaled; lia).
  destruct (d_of_f_fin _ Fq) as (Vd & Fd). rewrite Vq in Vd.
  set (x := d_of_f (fdiv (f_of_Z w) (f_of_Z 64))) in *.
  assert (b2r (dopp x) = - b2r x /\ fin (dopp x))%R as (Vo & Fo).
  { unfold dopp. split; [apply B2R_Bopp|]. unfold fin. rewrite is_finite_Bopp. exact Fd. }
  rewrite dfloor_spec by auto. rewrite Vo, Vd.
  set (z := Zfloor (- (IZR w * bpow radix2 (-6)))).
  assert (IZR z <= - (IZR w / 64) < IZR z + 1)%R as Hz.
  { unfold z. rewrite Eq. split; [apply Zfloor_lb|apply Zfloor_ub]. }
  assert (64 * (- z - 1) < w <= 64 * (- z)) as Hzz.
  { split.
    - apply lt_IZR. rewrite mult_IZR, minus_IZR, opp_IZR. lra.
    - apply le_IZR. rewrite mult_IZR, opp_IZR. lra. }
  exists (- z). split; [|exact Hzz]. apply int_val_ok. unfold INT_MIN, INT_MAX. lia.
Qed.

(** A new surface: all tiles of the canvas white and opaque (0xFFFF words; not
    the transparent pixels of the other surfaces), large enough for the canvas,
    nothing more than one tile too large. *)
Theorem C18_new_surface : forall w h, 0 < w <= 16777216 -> 0 < h <= 16777216 -> w * h <= 536870911 ->
  exists s, fixed_new true true true w h = Ok (Some s) /\ good s /\ holds s (fun _ _ _ => 65535) /\
    64 * (fs_tiles_w s - 1) < w <= 64 * fs_tiles_w s /\ 64 * (fs_tiles_h s - 1) < h <= 64 * fs_tiles_h s.
Proof.
  intros w h Hw Hh Ha. unfold fixed_new.
  destruct (Z.ltb_spec 0 w); [|lia]. destruct (Z.ltb_spec 0 h); [|lia]. cbn [negb].
  destruct (tiles_for_ok w Hw) as (tw & -> & Htw). destruct (tiles_for_ok h Hh) as (th & -> & Hth). cbn [obind].
  assert (0 < tw /\ 0 < th) as (T1 & T2) by lia.
  assert (tw * th <= 1000000).
  { assert (64 * (tw - 1) <= w - 1) by lia. assert (64 * (th - 1) <= h - 1) by lia.
    assert (64 * (tw - 1) * (64 * (th - 1)) <= (w - 1) * (h - 1)) by (apply Z.mul_le_mono_nonneg; lia).
    assert (tw <= 262144) by lia. assert (th <= 262144) by lia. nia. }
  rewrite int_val_ok by (unfold INT_MIN, INT_MAX; nia). cbn [obind].
  rewrite int_val_ok by (unfold INT_MIN, INT_MAX, TILE_PX; lia). cbn [obind]. unfold TILE_PX.
  destruct (Z.leb_spec w (64 * tw)); [|lia]. cbn [negb].
  rewrite int_val_ok by (unfold INT_MIN, INT_MAX, TILE_PX; lia). cbn [obind].
  destruct (Z.leb_spec h (64 * th)); [|lia]. cbn [negb].
  rewrite int_val_ok by (unfold INT_MIN, INT_MAX; nia). cbn [obind].
  rewrite int_val_ok by (unfold INT_MIN, INT_MAX; nia). cbn [obind].
  assert (0 <= tw * th) by nia.
  rewrite !size_t_small by (unfold TILE_BYTES, TILE_WORDS; nia).
  assert (w * h <= 64 * tw * (64 * th)) by (apply Z.mul_le_mono_nonneg; lia).
  destruct (Z.leb_spec (w * h * 4 * 2) (tw * th * TILE_BYTES)); [|unfold TILE_BYTES, TILE_WORDS in *; nia]. cbn [negb].
  eexists. split; [reflexivity|]. cbn [fs_tiles_w fs_tiles_h]. split; [|split; [|auto]].
  - unfold good. cbn [fs_tiles_w fs_tiles_h fs_words]. repeat (split; auto); [unfold INT_MAX; lia|].
    symmetry. apply Z.div_unique with 0; unfold TILE_BYTES; lia.
  - split; reflexivity.
Qed.

(** Larger canvases: the size check itself overflows ... *)
Theorem C18_large_canvas_refuted : fixed_new true true true 23171 23171 = UB.
Proof. vm_compute. reflexivity. Qed.
(** ... or the number of tiles, computed in float, is too small and the assert fails. *)
Theorem C18_long_canvas_refuted : fixed_new true true true 16777281 1 = Abort.
Proof. vm_compute. reflexivity. Qed.

Example C18_case : match fixed_new true true true 100 50 with
  | Ok (Some s) =>
      match run_requests s [mkRequest 1 0 [Rd 5; Wr 5 7; Rd 5]; mkRequest 2 0 [Wr 5 9; Rd 5]; mkRequest (-1) 3 [Rd 5];
                            mkRequest 0 0 [Rd 5]; mkRequest 1 0 [Rd 5]] with
      | Ok (_, vs) => vs = [65535; 7; 9; 0; 65535; 7]
      | _ => False
      end
  | _ => False
  end.
Proof. vm_compute. reflexivity. Qed.

Print Assumptions C18_requests_refine_plane.
Print Assumptions C18_new_surface.
