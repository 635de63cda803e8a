(** C57 for the default brush, without provisos: in any two colours it paints every
    sequence of strokes, and the same changed rectangles are reported. *)
From Verif Require Import Base F32 F32Proofs Arith Color Mapping Settings Spectral Brush BrushProofs BrushInst BrushToy RecolourProofs UnderProofs
  Queue Blend Rect Symmetry Mask Plumb Paint EaselNum EaselDab EaselProofs EaselRun SymReach SymCopies Easel EaselSurf EaselProg EaselDefaults EndNum EaselEnd EaselLast P_Easel P_End P_Defaults P_Recolour P_UnderDefault.
From Verif Require Dab P_Dab P_Mask P_Blend P_Complete HistoryProofs.
From Coq Require Import Reals Lra.
Local Open Scope Z_scope.

Section Default.
  Variables (trig : Mask.trig_oracle) (G : trigops num32) (L : mathlib mix64).
  Variables (rng : Type) (next : rng -> outcome (f64 * rng)).
  Variable get : Dab.tsurf -> f32 -> f32 -> f32 -> f32 -> outcome (rgba mix64 * Dab.tsurf).
  Notation E := (Easel.easel G rng next get).
  Notation reports := (reports trig G L rng next get).
  Notation run := (Easel.run trig G L rng next get).

  Lemma run_reports : forall n l b w r, run n (b, w) l = Ok (Some r) -> exists q, reports n l b w = Ok (Some q).
  Proof.
    intros n l. induction l as [|a l IH]; intros b w r H; [exists []; reflexivity|]. rewrite run_app in H. apply obind_ok in H. destruct H as ([(b', w')|] & A & H); [|discriminate H].
    destruct (IH b' w' r H) as (q & Q).
    destruct a; try (exists q; cbn [P_Recolour.reports]; rewrite A; cbn [obind]; exact Q).
    cbn [Easel.act Easel.surface_call Dab.sstep] in A. cbn [P_Recolour.reports].
    destruct (Dab.end_atomic _ _ _ _ _) as [(ts, rr)| |]; [|discriminate A|discriminate A]. cbn [obind] in *. apply Ok_inj in A. injection A as <- <-.
    rewrite Q. cbn [obind option_map]. eexists. reflexivity.
  Qed.

  (** [h1 s1 v1], [h2 s2 v2]: two colours *)
  Theorem C57_default_brush : forall ok junk pix0 ts0 buckets g values bucket_memory lo hi (b : brush E) mixed_ fuel h1 s1 v1 h2 s2 v2 radius active cx cy angle ty lines strokes size,
    trig_ok trig -> turns_ok G -> easel_maths L -> hypot_fair L -> fair_numbers next ->
    Dab.tiled_surface_init G ok junk pix0 = Ok ts0 -> P_Dab.canvas pix0 -> (forall X Y, P_Blend.valid (HistoryProofs.pixel_of pix0 X Y)) ->
    brush_new L buckets g values bucket_memory lo hi = Ok b -> buckets <= 16777217 ->
    in_range (-1000000) 1000000 h1 -> any_number s1 -> any_number v1 -> in_range (-1000000) 1000000 h2 -> any_number s2 -> any_number v2 -> in_range (-6) 6 radius ->
    in_range (-65536) 65536 cx -> in_range (-65536) 65536 cy -> in_range (-1000000) 1000000 angle -> lines <= 4000000 ->
    0 <= size <= 65536 -> (forall events can e, In (events, can) strokes -> In e events -> event_ok e /\ within size e) ->
    260 * size + 1050 <= Z.of_nat fuel ->
    let program h s v := colour_and_size h s v radius ++ SetSymmetry active cx cy angle ty lines :: concat (map stroke strokes) in
    exists rectangles, reports fuel (program h1 s1 v1) b (mkWorld (E := E) ts0 mixed_) = Ok (Some rectangles) /\
      reports fuel (program h2 s2 v2) b (mkWorld (E := E) ts0 mixed_) = Ok (Some rectangles).
  Proof.
    intros ok junk pix0 ts0 buckets g jv jb lo hi b mx fuel h1 s1 v1 h2 s2 v2 radius active cx cy angle ty lines strokes size T TK EM HF FR I0 C0 V0 Nb Hb Hh1 Hs1 Hv1 Hh2 Hs2 Hv2 Hr Sx Sy Sa Sl Hz A Hf program.
    destruct (C53_default_brush trig G L rng next get ok junk pix0 ts0 buckets g jv jb lo hi b mx fuel h1 s1 v1 radius active cx cy angle ty lines strokes size T TK EM HF FR I0 C0 V0 Nb Hb Hh1 Hs1 Hv1 Hr Sx Sy Sa Sl Hz A Hf) as (b1 & w1 & R1).
    destruct (C53_default_brush trig G L rng next get ok junk pix0 ts0 buckets g jv jb lo hi b mx fuel h2 s2 v2 radius active cx cy angle ty lines strokes size T TK EM HF FR I0 C0 V0 Nb Hb Hh2 Hs2 Hv2 Hr Sx Sy Sa Sl Hz A Hf) as (b2 & w2 & R2).
    apply run_reports in R1. apply run_reports in R2. destruct R1 as (q1 & R1). destruct R2 as (q2 & R2).
    exists q1. split; [exact R1|]. cut (q2 = q1); [intros <-; exact R2|]. unfold colour_and_size in R1, R2. cbn [app] in R1, R2.
    assert (reachable L b) as Rb by (eapply r_new; [exact Nb|intros; apply index_ok_64; lia]).
    assert (forall l q, reports fuel (LoadDefaults :: l) b (mkWorld (E := E) ts0 mx) = Ok (Some q) -> exists c, from_defaults L b = Ok c /\ reports fuel l c (mkWorld (E := E) ts0 mx) = Ok (Some q)) as K.
    { intros l q H. change (reports fuel (LoadDefaults :: l) b (mkWorld (E := E) ts0 mx)) with (let* r := (let* c := from_defaults L b in Ok (Some (c, mkWorld (E := E) ts0 mx))) in match r with None => Ok None | Some (b, w) => reports fuel l b w end) in H.
      destruct (from_defaults L b) as [c| |]; [|discriminate H|discriminate H]. exists c. split; [reflexivity|exact H]. }
    apply K in R1. apply K in R2. destruct R1 as (c & Ec & R1). destruct R2 as (c' & Ec' & R2). rewrite Ec in Ec'. apply Ok_inj in Ec'. subst c'.
    refine (C57_reports trig G L rng next get fuel _ _ c _ q1 q2 (defaults_no_smudging G L rng next get b c Rb Ec) _ _ R1 R2).
    - assert (forall a, In a (concat (map stroke strokes)) -> leaves_smudging' a) as Kl.
      { intros a I. apply in_concat in I. destruct I as (l & I & J). apply in_map_iff in I. destruct I as ((evs, can) & <- & _). unfold stroke in J. cbn [fst snd] in J. destruct J as [<-|J]; [exact Logic.I|].
        apply in_app_or in J. destruct J as [J|[<-|[]]]; [|exact Logic.I]. apply in_map_iff in J. destruct J as (e & <- & _). exact Logic.I. }
      repeat (constructor; [first [exact Logic.I|intros X; vm_compute in X; discriminate X]|]). apply Forall_forall. exact Kl.
    - assert (forall l, (forall a, In a l -> a <> LoadDefaults) -> Forall2 but_colours' l l) as Kr.
      { induction l as [|a l IH]; intros Hl; constructor; [apply ba_same; apply Hl; left; reflexivity|apply IH; intros; apply Hl; right; assumption]. }
      do 3 (constructor; [apply ba_base; vm_compute; tauto|]). apply Kr. intros a [<-|[<-|I]]; [discriminate|discriminate|].
      apply in_concat in I. destruct I as (l & I & J). apply in_map_iff in I. destruct I as ((evs, can) & <- & _). unfold stroke in J. cbn [fst snd] in J. destruct J as [<-|J]; [discriminate|].
      apply in_app_or in J. destruct J as [J|[<-|[]]]; [|discriminate]. apply in_map_iff in J. destruct J as (e & <- & _). discriminate.
  Qed.
End Default.

(** *** Example: red and black strokes with eightfold symmetry on a blank canvas *)
Example C57_default_case : forall (points : list (list (Z * Z * Z))) ok junk ts0 b,
  (forall s x y t, In s points -> In (x, y, t) s -> Z.abs x <= 4096 /\ Z.abs y <= 4096) ->
  Dab.tiled_surface_init P_Dab.no_turn ok junk P_Dab.blank = Ok ts0 ->
  brush_new (E := easel P_Dab.no_turn unit (fun g => Ok (dlit 1 2, g)) (fun _ _ _ _ _ => UB)) toy_lib 256 tt [] [] 0 0 = Ok b ->
  let program v := colour_and_size f0 f1 v (f_of_Z 3) ++ SetSymmetry true (f_of_Z 100) (f_of_Z 50) f0 Snowflake 8 :: concat (map stroke (map (fun s => (map (fun '(x, y, t) => pen x y 50 t) s, fun _ => true)) points)) in
  let told v := reports P_Mask.flat P_Dab.no_turn toy_lib unit (fun g => Ok (dlit 1 2, g)) (fun _ _ _ _ _ => UB) (Z.to_nat 1066010) (program v) b
    (mkWorld (E := easel P_Dab.no_turn unit (fun g => Ok (dlit 1 2, g)) (fun _ _ _ _ _ => UB)) ts0 ((f0, f0, f0, f0) : rgba mix64)) in
  exists rectangles, told f1 = Ok (Some rectangles) /\ told f0 = Ok (Some rectangles).
Proof.
  intros points ok junk ts0 b A I0 Nb program told. destruct f0_val as (V0 & F0). destruct f1_val as (V1 & F1).
  apply (C57_default_brush P_Mask.flat P_Dab.no_turn toy_lib unit (fun g => Ok (dlit 1 2, g)) (fun _ _ _ _ _ => UB) ok junk P_Dab.blank ts0 256 tt [] [] 0 0 b
    ((f0, f0, f0, f0) : rgba mix64) (Z.to_nat 1066010) f0 f1 f1 f0 f1 f0 (f_of_Z 3) true (f_of_Z 100) (f_of_Z 50) f0 Snowflake 8
    (map (fun s => (map (fun '(x, y, t) => pen x y 50 t) s, fun _ => true)) points) 4096);
    [exact flat_trig|exact flat_turns|exact toy_maths|exact toy_hypot| |exact I0|exact P_Dab.blank_canvas| |exact Nb| | |exact F1|exact F1| |exact F1|exact F0| | | | | | | |].
  - intros g. exists (dlit 1 2), g. split; [reflexivity|]. apply dconst; [lia|lia|vm_compute; reflexivity].
  - intros X Y. rewrite P_Complete.blank_pixels. unfold P_Blend.valid, P_Blend.full; cbn. lia.
  - lia.
  - apply fconst; [lia|lia|vm_compute; reflexivity].
  - apply fconst; [lia|lia|vm_compute; reflexivity].
  - apply fconst; [lia|lia|vm_compute; reflexivity].
  - apply fconst; [lia|lia|vm_compute; reflexivity].
  - apply fconst; [lia|lia|vm_compute; reflexivity].
  - apply fconst; [lia|lia|vm_compute; reflexivity].
  - lia.
  - lia.
  - intros evs can e I Ie. apply in_map_iff in I. destruct I as (s & Es & Is). injection Es as <- _. apply in_map_iff in Ie. destruct Ie as (((x, y), t) & <- & It).
    destruct (A s x y t Is It) as (Hx & Hy). split; [apply pen_ok; [lia|lia|vm_compute; reflexivity]|].
    right. split; (eapply zf_weak; [apply zf_Z; lia|lia|lia]).
  - rewrite Z2Nat.id by lia. lia.
Qed.
Print Assumptions C57_default_brush.
Print Assumptions C57_default_case.
