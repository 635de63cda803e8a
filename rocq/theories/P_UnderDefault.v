(** C58 for the default brush, without provisos: it paints every sequence of strokes
    on any two pictures, and the pictures agree afterwards wherever they did before. *)
From Verif Require Import Base F32 F32Proofs Arith Color Mapping Settings Spectral Brush BrushProofs BrushInst BrushToy RecolourProofs UnderProofs
  Queue Blend Rect Symmetry Mask Plumb Paint EaselNum EaselDab EaselProofs EaselRun SymReach SymCopies Easel EaselSurf EaselProg EaselDefaults EndNum EaselEnd EaselLast P_Easel P_End P_Defaults P_Recolour P_Under.
From Verif Require Dab P_Dab P_Mask P_Blend P_Complete HistoryProofs DabProofs MaskProofs.
From Coq Require Import Reals Lra.
Local Open Scope Z_scope.

Lemma zero_below_one : @nle num32 (nofZ 0) (nofZ 1) = true.
Proof. vm_compute. reflexivity. Qed.
Lemma smudge_default : feq (number (M := mix64) (documented (Z.of_nat SET_SMUDGE))) f0 = true.
Proof. vm_compute. reflexivity. Qed.
Lemma smudge_id : 0 <= Z.of_nat SET_SMUDGE < Z.of_nat SETTINGS_COUNT /\ Z.of_nat SET_SMUDGE <> Z.of_nat SET_OPAQUE_MULTIPLY.
Proof. vm_compute. repeat split; intros X; discriminate X. Qed.

Section Default.
  Variables (trig : Mask.trig_oracle) (G : trigops num32) (L : mathlib mix64).
  Variables (rng : Type) (next : rng -> outcome (f64 * rng)).
  Variable get : Dab.tsurf -> f32 -> f32 -> f32 -> f32 -> outcome (rgba mix64 * Dab.tsurf).
  Notation E := (Easel.easel G rng next get).

  Lemma defaults_no_smudging : forall (b b' : brush E), reachable L b -> from_defaults L b = Ok b' -> no_smudging b'.
  Proof.
    intros b b' R F. destruct (C35_defaults (E := E) L zero_below_one b R) as (c & F' & (S1 & _ & _ & S4) & _). rewrite F in F'. apply Ok_inj in F'. subst c.
    destruct smudge_id as (H & N). split.
    - exists (number (documented (Z.of_nat SET_SMUDGE))). split; [exact (S1 _ H)|exact smudge_default].
    - exact (S4 _ H N).
  Qed.
  Lemma run_app : forall n a s l, Easel.run trig G L rng next get n s (a :: l) = (let* r := Easel.act trig G L rng next get n s a in match r with None => Ok None | Some s => Easel.run trig G L rng next get n s l end).
  Proof. reflexivity. Qed.

  (** [pix1], [pix2]: two pictures *)
  Theorem C58_default_brush : forall ok junk pix1 pix2 ts1 ts2 buckets g values bucket_memory lo hi (b : brush E) mixed_ fuel h s v radius active cx cy angle ty lines strokes size,
    trig_ok trig -> turns_ok G -> easel_maths L -> hypot_fair L -> fair_numbers next ->
    Dab.tiled_surface_init G ok junk pix1 = Ok ts1 -> P_Dab.canvas pix1 -> (forall X Y, P_Blend.valid (HistoryProofs.pixel_of pix1 X Y)) ->
    Dab.tiled_surface_init G ok junk pix2 = Ok ts2 -> P_Dab.canvas pix2 -> (forall X Y, P_Blend.valid (HistoryProofs.pixel_of pix2 X Y)) ->
    brush_new L buckets g values bucket_memory lo hi = Ok b -> buckets <= 16777217 ->
    in_range (-1000000) 1000000 h -> any_number s -> any_number v -> in_range (-6) 6 radius ->
    in_range (-65536) 65536 cx -> in_range (-65536) 65536 cy -> in_range (-1000000) 1000000 angle -> lines <= 4000000 ->
    0 <= size <= 65536 -> (forall events can e, In (events, can) strokes -> In e events -> event_ok e /\ within size e) ->
    260 * size + 1050 <= Z.of_nat fuel ->
    let program := colour_and_size h s v radius ++ SetSymmetry active cx cy angle ty lines :: concat (map stroke strokes) in
    exists b' w1 w2, Easel.run trig G L rng next get fuel (b, mkWorld (E := E) ts1 mixed_) program = Ok (Some (b', w1)) /\
      Easel.run trig G L rng next get fuel (b, mkWorld (E := E) ts2 mixed_) program = Ok (Some (b', w2)) /\
      w_surf w2 = on_picture (w_surf w1) (picture (w_surf w2)) /\
      forall t, pix2 t = pix1 t -> picture (w_surf w2) t = picture (w_surf w1) t.
  Proof.
    intros ok junk pix1 pix2 ts1 ts2 buckets g jv jb lo hi b mx fuel h s v radius active cx cy angle ty lines strokes size T TK EM HF FR I1 C1 V1 I2 C2 V2 Nb Hb Hh Hs Hv Hr Sx Sy Sa Sl Hz A Hf program.
    destruct (C53_default_brush trig G L rng next get ok junk pix1 ts1 buckets g jv jb lo hi b mx fuel h s v radius active cx cy angle ty lines strokes size T TK EM HF FR I1 C1 V1 Nb Hb Hh Hs Hv Hr Sx Sy Sa Sl Hz A Hf) as (b1 & w1 & R1).
    destruct (C53_default_brush trig G L rng next get ok junk pix2 ts2 buckets g jv jb lo hi b mx fuel h s v radius active cx cy angle ty lines strokes size T TK EM HF FR I2 C2 V2 Nb Hb Hh Hs Hv Hr Sx Sy Sa Sl Hz A Hf) as (b2 & w2 & R2).
    fold program in R1, R2.
    assert (ts2 = on_picture ts1 pix2 /\ picture ts1 = pix1) as (-> & Ep).
    { unfold Dab.tiled_surface_init in I1, I2. apply obind_ok in I1. destruct I1 as (sy & Es & I1). rewrite Es in I2. cbn [obind] in I2. apply Ok_inj in I1. apply Ok_inj in I2. subst ts1 ts2. split; reflexivity. }
    assert (reachable L b) as Rb by (eapply r_new; [exact Nb|intros; apply index_ok_64; lia]).
    pose proof R1 as R1'. pose proof R2 as R2'. unfold program, colour_and_size in R1', R2'. cbn [app] in R1', R2'. rewrite run_app in R1', R2'. set (rest := SetBase _ h :: _) in *.
    change (Easel.act trig G L rng next get fuel (b, mkWorld (E := E) ts1 mx) LoadDefaults) with (let* c := from_defaults L b in Ok (Some (c, mkWorld (E := E) ts1 mx))) in R1'.
    change (Easel.act trig G L rng next get fuel (b, mkWorld (E := E) (on_picture ts1 pix2) mx) LoadDefaults) with (let* c := from_defaults L b in Ok (Some (c, mkWorld (E := E) (on_picture ts1 pix2) mx))) in R2'.
    destruct (from_defaults L b) as [c| |] eqn:Ed; [|discriminate R1'|discriminate R1']. cbn [obind] in R1', R2'.
    assert (Forall leaves_smudging' rest /\ ~ In LoadDefaults rest) as (Ls & Nd).
    { assert (forall a, In a (concat (map stroke strokes)) -> leaves_smudging' a /\ a <> LoadDefaults) as K.
      { intros a I. apply in_concat in I. destruct I as (l & I & J). apply in_map_iff in I. destruct I as ((evs, can) & <- & _). unfold stroke in J. cbn [fst snd] in J. destruct J as [<-|J]; [split; [exact Logic.I|discriminate]|].
        apply in_app_or in J. destruct J as [J|[<-|[]]]; [|split; [exact Logic.I|discriminate]]. apply in_map_iff in J. destruct J as (e & <- & _). split; [exact Logic.I|discriminate]. }
      unfold rest. split.
      - repeat (constructor; [first [exact Logic.I|intros X; vm_compute in X; discriminate X]|]). apply Forall_forall. intros a I. exact (proj1 (K a I)).
      - intros I. cbn [In] in I. repeat (destruct I as [I|I]; [discriminate I|]). exact (proj2 (K _ I) eq_refl). }
    destruct (C58_canvas trig G L rng next get fuel rest c ts1 mx pix2 b1 b2 w1 w2 (defaults_no_smudging b c Rb Ed) Ls Nd R1' R2') as (-> & Q1 & Q2). rewrite Ep in Q2.
    exists b1, w1, w2. split; [exact R1|]. split; [exact R2|]. split; [exact Q1|exact Q2].
  Qed.
End Default.

(** *** Example: a blank canvas and one with a white tile *)
Definition white_tile (t : tile) : list Z := if tile_equal t (5, 5) then repeat 32768 (Z.to_nat 16384) else P_Dab.blank t.
Lemma white_canvas : P_Dab.canvas white_tile.
Proof. intros t. unfold white_tile. destruct (tile_equal _ _); [|apply P_Dab.blank_canvas]. unfold DabProofs.tile_ok. rewrite repeat_length. lia. Qed.
Lemma white_valid : forall X Y, P_Blend.valid (HistoryProofs.pixel_of white_tile X Y).
Proof.
  intros X Y. pose proof (P_Complete.blank_pixels X Y) as K. unfold HistoryProofs.pixel_of in *. unfold white_tile. destruct (tile_equal _ _).
  - unfold MaskProofs.pixel_at. pose proof (Z.mod_pos_bound X 64). pose proof (Z.mod_pos_bound Y 64).
    assert (forall n, (n < Z.to_nat 16384)%nat -> nth n (repeat 32768 (Z.to_nat 16384)) 0 = 32768) as N.
    { intros n Hn. generalize dependent (Z.to_nat 16384). intros k. revert n. induction k as [|k IH]; intros [|n] Hn; cbn; try lia. apply IH. lia. }
    rewrite !N by lia. unfold P_Blend.valid, P_Blend.full. cbn. lia.
  - rewrite K. unfold P_Blend.valid, P_Blend.full. cbn. lia.
Qed.
Example C58_default_case : forall (points : list (list (Z * Z * Z))) ok junk ts1 ts2 b,
  (forall s x y t, In s points -> In (x, y, t) s -> Z.abs x <= 4096 /\ Z.abs y <= 4096) ->
  Dab.tiled_surface_init P_Dab.no_turn ok junk P_Dab.blank = Ok ts1 -> Dab.tiled_surface_init P_Dab.no_turn ok junk white_tile = Ok ts2 ->
  brush_new (E := easel P_Dab.no_turn unit (fun g => Ok (dlit 1 2, g)) (fun _ _ _ _ _ => UB)) toy_lib 256 tt [] [] 0 0 = Ok b ->
  let program := colour_and_size f0 f1 f1 (f_of_Z 3) ++ SetSymmetry true (f_of_Z 100) (f_of_Z 50) f0 Snowflake 8 :: concat (map stroke (map (fun s => (map (fun '(x, y, t) => pen x y 50 t) s, fun _ => true)) points)) in
  let painting ts := run P_Mask.flat P_Dab.no_turn toy_lib unit (fun g => Ok (dlit 1 2, g)) (fun _ _ _ _ _ => UB) (Z.to_nat 1066010)
    (b, mkWorld (E := easel P_Dab.no_turn unit (fun g => Ok (dlit 1 2, g)) (fun _ _ _ _ _ => UB)) ts ((f0, f0, f0, f0) : rgba mix64)) program in
  exists b' w1 w2, painting ts1 = Ok (Some (b', w1)) /\ painting ts2 = Ok (Some (b', w2)) /\ forall t, t <> (5, 5) -> picture (w_surf w2) t = picture (w_surf w1) t.
Proof.
  intros points ok junk ts1 ts2 b A I1 I2 Nb program painting. destruct f0_val as (V0 & F0). destruct f1_val as (V1 & F1).
  destruct (C58_default_brush P_Mask.flat P_Dab.no_turn toy_lib unit (fun g => Ok (dlit 1 2, g)) (fun _ _ _ _ _ => UB) ok junk P_Dab.blank white_tile ts1 ts2 256 tt [] [] 0 0 b
    ((f0, f0, f0, f0) : rgba mix64) (Z.to_nat 1066010) f0 f1 f1 (f_of_Z 3) true (f_of_Z 100) (f_of_Z 50) f0 Snowflake 8
    (map (fun s => (map (fun '(x, y, t) => pen x y 50 t) s, fun _ => true)) points) 4096) as (b' & w1 & w2 & R1 & R2 & _ & K);
    [exact flat_trig|exact flat_turns|exact toy_maths|exact toy_hypot| |exact I1|exact P_Dab.blank_canvas| |exact I2|exact white_canvas|exact white_valid|exact Nb| | | | | | | | | | | | |].
  - intros g. exists (dlit 1 2), g. split; [reflexivity|]. apply dconst; [lia|lia|vm_compute; reflexivity].
  - intros X Y. rewrite P_Complete.blank_pixels. unfold P_Blend.valid, P_Blend.full; cbn. lia.
  - lia.
  - apply fconst; [lia|lia|vm_compute; reflexivity].
  - exact F1.
  - exact F1.
  - apply fconst; [lia|lia|vm_compute; reflexivity].
  - apply fconst; [lia|lia|vm_compute; reflexivity].
  - apply fconst; [lia|lia|vm_compute; reflexivity].
  - apply fconst; [lia|lia|vm_compute; reflexivity].
  - lia.
  - lia.
  - intros evs can e I Ie. apply in_map_iff in I. destruct I as (s & Es & Is). injection Es as <- _. apply in_map_iff in Ie. destruct Ie as (((x, y), t) & <- & It).
    destruct (A s x y t Is It) as (Hx & Hy). split; [apply pen_ok; [lia|lia|vm_compute; reflexivity]|].
    right. split; (eapply zf_weak; [apply zf_Z; lia|lia|lia]).
  - rewrite Z2Nat.id by lia. lia.
  - exists b', w1, w2. split; [exact R1|]. split; [exact R2|]. intros t Nt. apply K. unfold white_tile. destruct (tile_equal t (5, 5)) eqn:Et; [destruct (Nt (tiles_eq _ _ Et))|reflexivity].
Qed.
Print Assumptions C58_default_brush.
Print Assumptions C58_default_case.
