(** Property C36: loading a brush file. *)
From Verif Require Import Base F32 F32Proofs Arith Color Mapping P_Mapping Settings P_Settings Spectral Brush BrushProofs BrushInst BrushToy BrushSettings Json.
From Coq Require Import String.
Local Open Scope Z_scope.
Notation length := List.length.

Section Load.
  Context {M : mixed} (L : mathlib M) (J : jsonc M) {E : env M}.
  Notation K := (sng M).
  Notation S := (car (sng M)).
  Notation json := (json (car (dbl M))).
  Notation brush := (brush E).

  (** ** Reading a document *)

  (** the value of an object under a key (the first one; json-c keeps only one);
      null counts as absent *)
  Definition field (o : json) (key : string) : option json :=
    match o with
    | JObject l =>
        match find (fun kv => String.eqb (fst kv) key) l with
        | Some (_, JNull) | None => None
        | Some (_, v) => Some v
        end
    | _ => None
    end.
  (** the number that a value of the file stands for, as a float: what is not a
      number, a truth value or a text counts as 0 *)
  Definition number_of (v : json) : S :=
    nar match v with
        | JDouble x => x
        | JInt z => nofZ z
        | JBool true => nofZ 1
        | JString t => jc_strtod J t
        | JNull | JBool false | JArray _ | JObject _ => nofZ 0
        end.
  (** the int that a value of the file stands for: numbers beyond 32 bits count as
      the nearest int *)
  Definition int_of (v : json) (n : Z) : Prop :=
    match v with
    | JInt z => INT_MIN <= z <= INT_MAX /\ n = z \/ z < INT_MIN /\ n = INT_MIN \/ INT_MAX < z /\ n = INT_MAX
    | JDouble x => jc_dtoi J x = Ok n
    | JString t => n = jc_stoi J t
    | JBool true => n = 1
    | JNull | JBool false | JArray _ | JObject _ => n = 0
    end.
  (** a point of a curve: an array of two numbers (missing ones count as 0) *)
  Definition point_of (p : json) : option (S * S) :=
    match p with JArray c => Some (number_of (nth 0 c JNull), number_of (nth 1 c JNull)) | _ => None end.
  Definition points_of (pts : list json) (xys : list (S * S)) : Prop := map point_of pts = map Some xys.

  (** a curve that the engine accepts: none or 2 to 64 points, from left to right *)
  Fixpoint ascending (xys : list (S * S)) : Prop :=
    match xys with
    | (x, _) :: (((x', _) :: _) as r) => nle x x' = true /\ ascending r
    | _ => True
    end.
  Definition drawable (pts : list json) : Prop :=
    (length pts = 0%nat \/ (2 <= length pts <= 64)%nat) /\ exists xys, points_of pts xys /\ ascending xys.

  (** the curves of a setting are read until one is not an array or has an
      unknown name; those that are read must be acceptable *)
  Fixpoint curves_safe (l : list (string * json)) : Prop :=
    match l with
    | (name, JArray pts) :: l => (exists i, input_name i = Some name) -> drawable pts /\ curves_safe l
    | _ => True
    end.
  Definition setting_safe (name : string) (o : json) : Prop :=
    (exists i, setting_name i = Some name) -> field o "base_value" <> None ->
    forall v, field o "inputs" = Some v -> exists l, v = JObject l /\ curves_safe l.
  (** a document that does not make the library misbehave *)
  Definition safe (doc : option json) : Prop :=
    forall o v, doc = Some o -> field o "version" = Some v ->
      exists n, int_of v n /\
        (n = 3 -> forall s, field o "settings" = Some s ->
           exists l, s = JObject l /\ Forall (fun kv => setting_safe (fst kv) (snd kv)) l).

  (** a setting that is applied completely *)
  Definition complete (name : string) (o : json) (v : json) (l : list (string * json)) : Prop :=
    (exists i, setting_name i = Some name) /\ field o "base_value" = Some v /\ field o "inputs" = Some (JObject l) /\
    Forall (fun kv => (exists i, input_name i = Some (fst kv)) /\ exists pts, snd kv = JArray pts) l.

  (** ** Proofs *)
  Lemma field_get : forall o key, obj_get o key = field o key.
  Proof.
    intros o key. destruct o as [| | | | | |l]; try reflexivity. cbn [obj_get field]. induction l as [|[k v] l IH]; [reflexivity|]. cbn [assoc find fst].
    destruct (String.eqb k key); [destruct v; reflexivity|exact IH].
  Qed.
  Lemma number_get : forall v, nar (get_double J v) = number_of v.
  Proof. intros [|[|]| | | | |]; reflexivity. Qed.
  Lemma int_get : forall v n, get_int J v = Ok n <-> int_of v n.
  Proof.
    intros v n. destruct v as [|[|]|z| | | |]; cbn [get_int int_of]; try (split; [intros H; apply Ok_inj in H; auto|intros ->; reflexivity]); [|tauto].
    assert (INT_MIN < INT_MAX) by (unfold INT_MIN, INT_MAX; lia).
    split; [intros H1; apply Ok_inj in H1; subst n; lia|]. intros H1. f_equal. lia.
  Qed.
  Lemma found_setting : forall name, found (setting_from_cname name) SETTINGS_COUNT = true <-> exists i, setting_name i = Some name.
  Proof.
    intros name. split.
    - intros F. destruct (setting_from_cname name) as [|p|p] eqn:N; try discriminate F; clear F.
      all: assert (~ forall i, setting_name i <> Some name) as X by (intros X; apply (C27_setting_names name) in X; rewrite X in N; discriminate).
      all: assert (In name (map st_cname settings_info_array)) as I by
        (destruct (in_dec string_dec name (map st_cname settings_info_array)) as [I|I]; auto; exfalso; apply X; intros i Hi; apply I;
         unfold setting_name in Hi; rewrite <- nth_error_map in Hi; eapply nth_error_In; eauto).
      all: apply In_nth_error in I; destruct I as (i & Hi); exists i; unfold setting_name; rewrite <- nth_error_map; exact Hi.
    - intros (i & Hi). rewrite (proj1 (C27_setting_names name) i Hi). unfold found.
      assert (i < SETTINGS_COUNT)%nat. { unfold setting_name in Hi. rewrite <- nth_error_map in Hi.
        assert (nth_error (map st_cname settings_info_array) i <> None) as X by congruence. apply nth_error_Some in X. exact X. }
      destruct (Z.leb_spec 0 (Z.of_nat i)); [|lia]. destruct (Z.ltb_spec (Z.of_nat i) (Z.of_nat SETTINGS_COUNT)); [auto|lia].
  Qed.
  Lemma found_input : forall name, found (input_from_cname name) INPUTS_COUNT = true <-> exists i, input_name i = Some name.
  Proof.
    intros name. split.
    - intros F. destruct (input_from_cname name) as [|p|p] eqn:N; try discriminate F; clear F.
      all: assert (~ forall i, input_name i <> Some name) as X by (intros X; apply (C27_input_names name) in X; rewrite X in N; discriminate).
      all: assert (In name (map in_cname inputs_info_array)) as I by
        (destruct (in_dec string_dec name (map in_cname inputs_info_array)) as [I|I]; auto; exfalso; apply X; intros i Hi; apply I;
         unfold input_name in Hi; rewrite <- nth_error_map in Hi; eapply nth_error_In; eauto).
      all: apply In_nth_error in I; destruct I as (i & Hi); exists i; unfold input_name; rewrite <- nth_error_map; exact Hi.
    - intros (i & Hi). rewrite (proj1 (C27_input_names name) i Hi). unfold found.
      assert (i < INPUTS_COUNT)%nat. { unfold input_name in Hi. rewrite <- nth_error_map in Hi.
        assert (nth_error (map in_cname inputs_info_array) i <> None) as X by congruence. apply nth_error_Some in X. exact X. }
      destruct (Z.leb_spec 0 (Z.of_nat i)); [|lia]. destruct (Z.ltb_spec (Z.of_nat i) (Z.of_nat INPUTS_COUNT)); [auto|lia].
  Qed.
  Lemma found_range : forall id n, found id n = true -> 0 <= id < Z.of_nat n.
  Proof. intros id n H. unfold found in H. apply andb_prop in H. destruct H as [A B]. apply Z.leb_le in A. apply Z.ltb_lt in B. lia. Qed.

  Fixpoint point_edits (input i : Z) (xys : list (S * S)) : list (edit K) :=
    match xys with [] => [] | (x, y) :: r => SetPoint input i x y :: point_edits input (i + 1) r end.
  Fixpoint chain (prev : option S) (xys : list (S * S)) : Prop :=
    match xys with
    | [] => True
    | (x, _) :: r => match prev with Some x' => nle x' x = true | None => True end /\ chain (Some x) r
    end.
  Lemma chain_ascending : forall xys, chain None xys <-> ascending xys.
  Proof.
    assert (forall xys x, chain (Some x) xys <-> match xys with [] => True | (x', _) :: _ => nle x x' = true /\ ascending xys end) as A.
    { induction xys as [|[x1 y1] xys IH]; intros x; cbn [chain]; [tauto|]. rewrite IH. destruct xys as [|[x2 y2] xys]; cbn [ascending]; tauto. }
    intros [|[x y] xys]; [cbn; tauto|]. cbn [chain]. rewrite A. destruct xys as [|[x2 y2] xys]; cbn [ascending]; tauto.
  Qed.

  Definition prev_ok (es : list (edit K)) (input i : Z) (prev : option S) : Prop :=
    (i = 0 /\ prev = None) \/ (0 < i /\ exists x y, last_point es input (i - 1) = Some (x, y) /\ prev = Some x).

  Lemma load_points_ok : forall pts (b : brush) h id input i prev xys, history b h -> 0 <= id < Z.of_nat SETTINGS_COUNT -> 0 <= input < Z.of_nat INPUTS_COUNT ->
    0 <= i -> i + Z.of_nat (length pts) <= last_n (h (Z.to_nat id)) input -> prev_ok (h (Z.to_nat id)) input i prev ->
    points_of pts xys -> chain prev xys ->
    exists b', load_points J b id input i pts = Ok b' /\ history b' (more h id (point_edits input i xys)) /\ same_but_settings b b'.
  Proof.
    induction pts as [|p pts IH]; intros b h id input i prev xys H Hid Hin Hi Hn Hp Hx Hc.
    - destruct xys; [|discriminate]. exists b. split; [reflexivity|]. split; [|apply sbs_refl]. eapply history_ext; [|exact H].
      intros j _. unfold more. cbn [point_edits]. rewrite app_nil_r. destruct (Nat.eqb j (Z.to_nat id)); auto.
    - destruct xys as [|[x y] xys]; [discriminate|]. unfold points_of in Hx. cbn [map] in Hx. injection Hx as Hx1 Hx. cbn [chain] in Hc. destruct Hc as [Hc1 Hc].
      unfold point_of in Hx1. destruct p as [| | | | |c|]; try discriminate. injection Hx1 as Ex Ey. cbn [length] in Hn.
      destruct (edit_ok L b h id (SetPoint input i x y) H Hid) as (b1 & E1 & H1 & F1).
      { split; [exact Hin|]. split; [lia|]. intros Hi'. destruct Hp as [(? & _)|(_ & x' & y' & P1 & ->)]; [lia|]. eauto. }
      destruct (IH b1 _ id input (i + 1) (Some x) xys H1 Hid Hin) as (b2 & E2 & H2 & F2); auto; try lia.
      { unfold more. rewrite Nat.eqb_refl, last_n_snoc. lia. }
      { right. split; [lia|]. exists x, y. split; [|auto]. unfold more. rewrite Nat.eqb_refl, last_point_snoc, Z.eqb_refl. cbn [andb].
        replace (i + 1 - 1) with i by lia. rewrite Z.eqb_refl. reflexivity. }
      exists b2. cbn [load_points get_idx obind]. rewrite ?number_get. rewrite Ex, Ey.
      cbn [brush_edit] in E1. rewrite E1. cbn [obind]. split; [exact E2|]. split; [|eapply sbs_trans; eauto].
      eapply history_ext; [|exact H2]. intros j _. unfold more. cbn [point_edits]. destruct (Nat.eqb j (Z.to_nat id)); auto. rewrite <- app_assoc. reflexivity.
  Qed.
  Lemma load_points_inv : forall pts (b : brush) h id input i prev b', history b h -> prev_ok (h (Z.to_nat id)) input i prev -> 0 <= i ->
    load_points J b id input i pts = Ok b' -> exists xys, points_of pts xys /\ chain prev xys.
  Proof.
    induction pts as [|p pts IH]; intros b h id input i prev b' H Hp Hi A; [exists []; split; [reflexivity|exact I]|].
    cbn [load_points] in A. apply obind_ok in A. destruct A as (jx & Ex & A). apply obind_ok in A. destruct A as (jy & Ey & A).
    apply obind_ok in A. destruct A as (b1 & E1 & A). destruct p as [| | | | |c|]; try discriminate. injection Ex as <-. injection Ey as <-.
    rewrite !number_get in E1. set (x := number_of (nth 0 c JNull)) in *. set (y := number_of (nth 1 c JNull)) in *.
    change (brush_edit L b id (SetPoint input i x y) = Ok b1) in E1.
    destruct (edit_inv L b h id _ b1 H E1) as [Hid Hl].
    destruct (edit_ok L b h id _ H Hid Hl) as (b2 & E2 & H2 & _). rewrite E1 in E2. injection E2 as <-.
    destruct (IH b1 _ id input (i + 1) (Some x) b' H2) as (xys & X1 & X2); auto; [|lia|].
    { right. split; [lia|]. exists x, y. split; [|auto]. unfold more. rewrite Nat.eqb_refl, last_point_snoc, Z.eqb_refl. cbn [andb].
      replace (i + 1 - 1) with i by lia. rewrite Z.eqb_refl. reflexivity. }
    exists ((x, y) :: xys). split; [unfold points_of in *; cbn [map]; rewrite X1; reflexivity|]. cbn [chain]. split; [|exact X2].
    destruct Hl as (_ & _ & Hl). destruct Hp as [(_ & ->)|(Hp & x' & y' & P1 & ->)]; [exact I|]. destruct (Hl Hp) as (x2 & y2 & P2 & P3). congruence.
  Qed.

  (** the edits a list of curves makes *)
  Fixpoint xys_of (pts : list json) : list (S * S) :=
    match pts with [] => [] | p :: r => match point_of p with Some q => q :: xys_of r | None => [] end end.
  Lemma xys_points : forall pts xys, points_of pts xys -> xys_of pts = xys.
  Proof.
    induction pts as [|p pts IH]; intros [|q xys] H; try discriminate; [reflexivity|]. unfold points_of in H. cbn [map] in H. injection H as H1 H2.
    cbn [xys_of]. rewrite H1. f_equal. apply IH. exact H2.
  Qed.
  Fixpoint curves_edits (l : list (string * json)) : list (edit K) :=
    match l with
    | (name, JArray pts) :: l =>
        if found (input_from_cname name) INPUTS_COUNT
        then SetN (input_from_cname name) (Z.of_nat (length pts)) :: point_edits (input_from_cname name) 0 (xys_of pts) ++ curves_edits l
        else []
    | _ => []
    end.
  Fixpoint curves_done (l : list (string * json)) : bool :=
    match l with
    | [] => true
    | (name, JArray pts) :: l => found (input_from_cname name) INPUTS_COUNT && curves_done l
    | _ => false
    end.

  Lemma more_more : forall h id l1 l2 i, more (M := M) (more h id l1) id l2 i = more h id (l1 ++ l2) i.
  Proof. intros. unfold more. destruct (Nat.eqb i (Z.to_nat id)); auto. rewrite app_assoc. reflexivity. Qed.

  Lemma load_inputs_ok : forall l (b : brush) h id, history b h -> 0 <= id < Z.of_nat SETTINGS_COUNT -> curves_safe l ->
    exists b', load_inputs J b id l = Ok (curves_done l, b') /\ history b' (more h id (curves_edits l)) /\ same_but_settings b b'.
  Proof.
    induction l as [|[name v] l IH]; intros b h id H Hid Hs.
    - exists b. split; [reflexivity|]. split; [|apply sbs_refl]. eapply history_ext; [|exact H]. intros j _. unfold more. cbn. rewrite app_nil_r. destruct (Nat.eqb j (Z.to_nat id)); auto.
    - destruct v as [|bo|z|dv|st|pts|o]; try (exists b; split; [reflexivity|]; split; [|apply sbs_refl]; eapply history_ext; [|exact H]; intros j _; unfold more; cbn; rewrite app_nil_r; destruct (Nat.eqb j (Z.to_nat id)); auto).
      cbn [load_inputs curves_done curves_edits curves_safe] in *. destruct (found (input_from_cname name) INPUTS_COUNT) eqn:F; cbn [negb andb].
      2:{ exists b; split; [reflexivity|]; split; [|apply sbs_refl]; eapply history_ext; [|exact H]; intros j _; unfold more; cbn; rewrite app_nil_r; destruct (Nat.eqb j (Z.to_nat id)); auto. }
      destruct (Hs (proj1 (found_input name) F)) as [(Hn & xys & Hx & Ha) Hl]. apply found_range in F.
      destruct (edit_ok L b h id (SetN (input_from_cname name) (Z.of_nat (length pts))) H Hid) as (b1 & E1 & H1 & F1). { split; [exact F|lia]. }
      destruct (load_points_ok pts b1 _ id (input_from_cname name) 0 None xys H1 Hid F) as (b2 & E2 & H2 & F2); auto; try lia.
      { unfold more. rewrite Nat.eqb_refl, (last_n_set _ []) by (intros ? ? []). lia. } { left. auto. } { apply chain_ascending. auto. }
      destruct (IH b2 _ id H2 Hid Hl) as (b3 & E3 & H3 & F3).
      exists b3. cbn [brush_edit] in E1. rewrite E1. cbn [obind]. rewrite E2. cbn [obind]. split; [exact E3|].
      split; [|eapply sbs_trans; [|exact F3]; eapply sbs_trans; eauto]. eapply history_ext; [|exact H3]. intros j _.
      rewrite !more_more. rewrite (xys_points _ _ Hx). reflexivity.
  Qed.
  Lemma load_inputs_inv : forall l (b : brush) h id r, history b h -> load_inputs J b id l = Ok r -> curves_safe l.
  Proof.
    induction l as [|[name v] l IH]; intros b h id r H A; [exact I|]. destruct v as [|bo|z|dv|st|pts|o]; try exact I.
    cbn [load_inputs curves_safe] in *. intros N. apply found_input in N. rewrite N in A. cbn [negb] in A.
    apply obind_ok in A. destruct A as (b1 & E1 & A). apply obind_ok in A. destruct A as (b2 & E2 & A).
    change (brush_edit L b id (SetN (input_from_cname name) (Z.of_nat (length pts))) = Ok b1) in E1.
    destruct (edit_inv L b h id _ b1 H E1) as [Hid Hl]. destruct (edit_ok L b h id _ H Hid Hl) as (b1' & E1' & H1 & _). rewrite E1 in E1'. injection E1' as <-.
    destruct (load_points_inv pts b1 _ id (input_from_cname name) 0 None b2 H1) as (xys & X1 & X2); auto; [left; auto|lia|].
    destruct Hl as (Hin & Hlen).
    assert (drawable pts) as Dr. { split; [lia|]. exists xys. split; [auto|]. apply chain_ascending. auto. }
    split; [exact Dr|].
    destruct (load_points_ok pts b1 _ id (input_from_cname name) 0 None xys H1 Hid Hin) as (b2' & E2' & H2 & _); auto; try lia.
    { unfold more. rewrite Nat.eqb_refl, (last_n_set _ []) by (intros ? ? []). lia. } { left. auto. }
    rewrite E2 in E2'. injection E2' as <-. eapply IH; eauto.
  Qed.

  Definition setting_edits (o : json) : list (edit K) :=
    match field o "base_value" with
    | None => []
    | Some v => SetBase (number_of v) :: match field o "inputs" with Some (JObject l) => curves_edits l | _ => [] end
    end.
  Definition setting_done (name : string) (o : json) : bool :=
    found (setting_from_cname name) SETTINGS_COUNT &&
    match field o "base_value", field o "inputs" with Some _, Some (JObject l) => curves_done l | _, _ => false end.
  Lemma more_nil : forall h id i, more (M := M) h id [] i = h i.
  Proof. intros. unfold more. rewrite app_nil_r. destruct (Nat.eqb i (Z.to_nat id)); auto. Qed.

  Lemma load_setting_ok : forall name o (b : brush) h, history b h -> setting_safe name o ->
    exists b', load_setting L J b name o = Ok (setting_done name o, b') /\ same_but_settings b b' /\
      history b' (if found (setting_from_cname name) SETTINGS_COUNT then more h (setting_from_cname name) (setting_edits o) else h).
  Proof.
    intros name o b h H Hs. unfold load_setting, setting_done. rewrite ?field_get. destruct (found (setting_from_cname name) SETTINGS_COUNT) eqn:F; cbn [negb andb].
    2:{ exists b. split; [reflexivity|]. split; [apply sbs_refl|exact H]. }
    specialize (Hs (proj1 (found_setting name) F)). apply found_range in F. unfold setting_edits.
    assert (forall o', (match o' with JObject _ => False | _ => True end) -> field o' "base_value" = None) as No by (intros [] X; try contradiction; reflexivity).
    assert (history b (more h (setting_from_cname name) [])) as H0 by (eapply history_ext; [|exact H]; intros; rewrite more_nil; auto).
    destruct o as [|bo|z|dv|st|pts|o]; try (rewrite No by exact I; exists b; split; [reflexivity|]; split; [apply sbs_refl|exact H0]).
    destruct (field (JObject o) "base_value") as [v|]; [|exists b; split; [reflexivity|]; split; [apply sbs_refl|exact H0]].
    destruct (edit_ok L b h _ (SetBase (number_of v)) H F I) as (b1 & E1 & H1 & F1). cbn [brush_edit] in E1. rewrite ?number_get. rewrite E1. cbn [obind].
    destruct (field (JObject o) "inputs") as [w|]; [|exists b1; split; [reflexivity|]; split; [exact F1|exact H1]].
    destruct (Hs ltac:(discriminate) w eq_refl) as (l & -> & Hl).
    destruct (load_inputs_ok l b1 _ _ H1 F Hl) as (b2 & E2 & H2 & F2). exists b2. rewrite E2. split; [reflexivity|]. split; [eapply sbs_trans; eauto|].
    eapply history_ext; [|exact H2]. intros j _. rewrite more_more. reflexivity.
  Qed.
  Lemma load_setting_inv : forall name o (b : brush) h r, history b h -> load_setting L J b name o = Ok r -> setting_safe name o.
  Proof.
    intros name o b h r H A N Hb w Hw. unfold load_setting in A. rewrite ?field_get in A. apply found_setting in N. rewrite N in A. cbn [negb] in A. apply found_range in N.
    destruct o as [|bo|z|dv|st|pts|o]; try discriminate Hw. destruct (field (JObject o) "base_value") as [v|]; [|contradiction].
    apply obind_ok in A. destruct A as (b1 & E1 & A). rewrite Hw in A. destruct w as [| | | | | |l]; try discriminate A.
    destruct (edit_ok L b h _ (SetBase (number_of v)) H N I) as (b1' & E1' & H1 & _). cbn [brush_edit] in E1'. rewrite ?number_get in E1. rewrite E1 in E1'. injection E1' as <-.
    exists l. split; [auto|]. eapply load_inputs_inv; eauto.
  Qed.

  (** the history of every setting after loading a list of settings *)
  Fixpoint loaded (h : nat -> list (edit K)) (l : list (string * json)) : nat -> list (edit K) :=
    match l with
    | [] => h
    | (name, o) :: l => loaded (if found (setting_from_cname name) SETTINGS_COUNT then more h (setting_from_cname name) (setting_edits o) else h) l
    end.
  Lemma load_settings_ok : forall l (b : brush) h any, history b h -> Forall (fun kv => setting_safe (fst kv) (snd kv)) l ->
    exists b', ofold (fun r kv => let '(any, b) := r in let* (ok, b) := load_setting L J b (fst kv) (snd kv) in Ok (any || ok, b)) l (any, b) =
      Ok (any || existsb (fun kv => setting_done (fst kv) (snd kv)) l, b') /\ same_but_settings b b' /\ history b' (loaded h l).
  Proof.
    induction l as [|[name o] l IH]; intros b h any H F.
    - exists b. cbn. rewrite orb_false_r. split; [reflexivity|]. split; [apply sbs_refl|exact H].
    - inversion F as [|? ? F1 F2]; subst. cbn [fst snd] in F1. destruct (load_setting_ok name o b h H F1) as (b1 & E1 & S1 & H1).
      destruct (IH b1 _ (any || setting_done name o) H1 F2) as (b2 & E2 & S2 & H2). exists b2. cbn [ofold existsb fst snd loaded]. rewrite E1. cbn [obind].
      rewrite E2, orb_assoc. split; [reflexivity|]. split; [eapply sbs_trans; eauto|exact H2].
  Qed.
  Lemma load_settings_inv : forall l (b : brush) h any r, history b h ->
    ofold (fun r kv => let '(any, b) := r in let* (ok, b) := load_setting L J b (fst kv) (snd kv) in Ok (any || ok, b)) l (any, b) = Ok r ->
    Forall (fun kv => setting_safe (fst kv) (snd kv)) l.
  Proof.
    induction l as [|[name o] l IH]; intros b h any r H A; [constructor|]. cbn [ofold fst snd] in A. apply obind_ok in A. destruct A as ((any1, b1) & A1 & A).
    apply obind_ok in A1. destruct A1 as ((ok, b1') & E1 & A1). injection A1 as <- <-.
    assert (setting_safe name o) as Hs by (eapply load_setting_inv; eauto). constructor; [exact Hs|].
    destruct (load_setting_ok name o b h H Hs) as (b2 & E2 & _ & H2). rewrite E1 in E2. injection E2 as _ <-. eapply IH; eauto.
  Qed.

  (** ** Theorems *)

  (** Loading returns exactly for the safe documents, whatever the brush was. *)
  Theorem C36_returns_iff_safe : forall (b : brush) doc, reachable L b ->
    ((exists r, from_string L J b doc = Ok r) <-> safe doc).
  Proof.
    intros b doc R. apply reachable_shape in R. destruct R as (_ & R & _). apply settings_history in R. destruct R as (h & H). split.
    - intros (r & A) o v -> Hv. cbn [from_string] in A. unfold load in A. rewrite ?field_get in A. rewrite Hv in A. apply obind_ok in A. destruct A as (n & En & A).
      exists n. split; [apply int_get; auto|]. intros -> s Es. cbn [Z.eqb negb] in A. change (3 =? 3) with true in A. cbn [negb] in A. rewrite Es in A.
      destruct s as [| | | | | |l]; try discriminate A. exists l. split; [auto|]. exact (load_settings_inv l b h false r H A).
    - intros Hs. destruct doc as [o|]; [|eexists; reflexivity]. cbn [from_string]. unfold load. rewrite ?field_get. destruct (field o "version") as [v|] eqn:Ev; [|eexists; reflexivity].
      destruct (Hs o v eq_refl Ev) as (n & En & Hl). apply int_get in En. rewrite En. cbn [obind]. destruct (Z.eqb_spec n 3) as [->|]; cbn [negb]; [|eexists; reflexivity].
      destruct (field o "settings") as [s|]; [|eexists; reflexivity]. destruct (Hl eq_refl s eq_refl) as (l & -> & F).
      destruct (load_settings_ok l b h false H F) as (b' & E1 & _). exists (existsb (fun kv => setting_done (fst kv) (snd kv)) l, b'). exact E1.
  Qed.

  (** *** what is in the brush afterwards *)
  Lemma same_setting : forall n1 n2, found (setting_from_cname n1) SETTINGS_COUNT = true -> setting_from_cname n1 = setting_from_cname n2 -> n1 = n2.
  Proof.
    intros n1 n2 F1 Eq. assert (found (setting_from_cname n2) SETTINGS_COUNT = true) as F2 by (rewrite <- Eq; auto).
    apply found_setting in F1. apply found_setting in F2. destruct F1 as (i1 & F1). destruct F2 as (i2 & F2).
    rewrite (proj1 (C27_setting_names n1) i1 F1), (proj1 (C27_setting_names n2) i2 F2) in Eq. apply Nat2Z.inj in Eq. congruence.
  Qed.
  Lemma same_input : forall n1 n2, found (input_from_cname n1) INPUTS_COUNT = true -> input_from_cname n1 = input_from_cname n2 -> n1 = n2.
  Proof.
    intros n1 n2 F1 Eq. assert (found (input_from_cname n2) INPUTS_COUNT = true) as F2 by (rewrite <- Eq; auto).
    apply found_input in F1. apply found_input in F2. destruct F1 as (i1 & F1). destruct F2 as (i2 & F2).
    rewrite (proj1 (C27_input_names n1) i1 F1), (proj1 (C27_input_names n2) i2 F2) in Eq. apply Nat2Z.inj in Eq. congruence.
  Qed.

  Lemma loaded_other : forall l h i, (forall name o, In (name, o) l -> setting_from_cname name <> Z.of_nat i) -> loaded h l i = h i.
  Proof.
    induction l as [|[name o] l IH]; intros h i H; [reflexivity|]. cbn [loaded]. rewrite IH by (intros n' o' I'; apply (H n' o'); right; auto).
    destruct (found (setting_from_cname name) SETTINGS_COUNT) eqn:F; auto. unfold more. destruct (Nat.eqb_spec i (Z.to_nat (setting_from_cname name))) as [Eq|]; auto.
    exfalso. apply (H name o); [left; auto|]. apply found_range in F. lia.
  Qed.
  Lemma loaded_named : forall l h name o, NoDup (map fst l) -> In (name, o) l -> found (setting_from_cname name) SETTINGS_COUNT = true ->
    loaded h l (Z.to_nat (setting_from_cname name)) = h (Z.to_nat (setting_from_cname name)) ++ setting_edits o.
  Proof.
    induction l as [|[n1 o1] l IH]; intros h name o Nd I F; [contradiction|]. cbn [map] in Nd. inversion Nd as [|? ? N1 N2]; subst. cbn [loaded]. destruct I as [I|I].
    - injection I as -> ->. rewrite F. rewrite loaded_other.
      + unfold more. rewrite Nat.eqb_refl. reflexivity.
      + intros n2 o2 I2 Eq. apply found_range in F as R. rewrite Z2Nat.id in Eq by lia. symmetry in Eq. apply same_setting in Eq; auto. subst n2. apply N1. apply in_map_iff. exists (name, o2). auto.
    - rewrite IH with (name := name) (o := o); auto. f_equal. destruct (found (setting_from_cname n1) SETTINGS_COUNT) eqn:F1; auto. unfold more.
      destruct (Nat.eqb_spec (Z.to_nat (setting_from_cname name)) (Z.to_nat (setting_from_cname n1))) as [Eq|]; auto. exfalso.
      apply found_range in F as R. apply found_range in F1 as R1. assert (setting_from_cname name = setting_from_cname n1) as Eq' by lia.
      apply same_setting in Eq'; auto. subst n1. apply N1. apply in_map_iff. exists (name, o). auto.
  Qed.

  Lemma point_edits_n : forall input xys i j n, ~ In (SetN j n) (point_edits input i xys).
  Proof. induction xys as [|[x y] xys IH]; intros i j n I; [contradiction|]. destruct I as [I|I]; [discriminate|]. eapply IH; eauto. Qed.
  Lemma curves_edits_n : forall l j n, In (SetN j n) (curves_edits l) -> exists name v, In (name, v) l /\ j = input_from_cname name.
  Proof.
    induction l as [|[name v] l IH]; intros j n I; [contradiction|]. destruct v as [|bo|z|dv|st|pts|o]; try contradiction I. cbn [curves_edits] in I.
    destruct (found (input_from_cname name) INPUTS_COUNT); [|contradiction]. destruct I as [I|I].
    - injection I as <- _. exists name, (JArray pts). split; [left; auto|auto].
    - apply in_app_or in I. destruct I as [I|I]; [exfalso; eapply point_edits_n; eauto|]. destruct (IH _ _ I) as (n' & v' & I' & ->). exists n', v'. split; [right; auto|auto].
  Qed.
  Lemma curves_edits_p : forall l j k x y, In (SetPoint j k x y) (curves_edits l) -> exists name v, In (name, v) l /\ j = input_from_cname name.
  Proof.
    induction l as [|[name v] l IH]; intros j k x y I; [contradiction|]. destruct v as [|bo|z|dv|st|pts|o]; try contradiction I. cbn [curves_edits] in I.
    destruct (found (input_from_cname name) INPUTS_COUNT); [|contradiction]. destruct I as [I|I]; [discriminate|].
    apply in_app_or in I. destruct I as [I|I].
    - exists name, (JArray pts). split; [left; auto|]. clear IH. revert I. generalize 0. induction (xys_of pts) as [|[x1 y1] r IHr]; intros i I; [contradiction|].
      destruct I as [I|I]; [injection I; auto|eauto].
    - destruct (IH _ _ _ _ I) as (n' & v' & I' & ->). exists n', v'. split; [right; auto|auto].
  Qed.
  Lemma last_point_app : forall (a l : list (edit K)) j k, (forall i q x y, In (SetPoint i q x y) l -> i <> j) -> last_point (a ++ l) j k = last_point a j k.
  Proof.
    intros a l j k. induction l as [|e l IH] using rev_ind; intros H; [rewrite app_nil_r; auto|].
    rewrite app_assoc, last_point_snoc, IH by (intros i q x y Hi; apply (H i q x y); apply in_or_app; auto).
    destruct e as [v|i n|i q x y]; auto. destruct (Z.eqb_spec i j); auto. exfalso. apply (H i q x y); auto. apply in_or_app. right. left. auto.
  Qed.
  Lemma last_point_edits : forall input xys (a : list (edit K)) i k, (k < length xys)%nat ->
    last_point (a ++ point_edits input i xys) input (i + Z.of_nat k) = Some (nth k xys (nofZ 0, nofZ 0)).
  Proof.
    assert (forall input xys (a : list (edit K)) i j, j < i -> last_point (a ++ point_edits input i xys) input j = last_point a input j) as Old.
    { intros input. induction xys as [|[x y] xys IH]; intros a i j Hj; cbn [point_edits]; [rewrite app_nil_r; auto|].
      change (SetPoint input i x y :: point_edits input (i + 1) xys) with ([SetPoint input i x y] ++ point_edits input (i + 1) xys).
      rewrite app_assoc, IH by lia. rewrite last_point_snoc, Z.eqb_refl. destruct (Z.eqb_spec i j); [lia|]. reflexivity. }
    intros input. induction xys as [|[x y] xys IH]; intros a i k Hk; [cbn in Hk; lia|]. cbn [point_edits].
    change (SetPoint input i x y :: point_edits input (i + 1) xys) with ([SetPoint input i x y] ++ point_edits input (i + 1) xys). rewrite app_assoc.
    destruct k as [|k].
    - rewrite Z.add_0_r, Old by lia. rewrite last_point_snoc, !Z.eqb_refl. reflexivity.
    - replace (i + Z.of_nat (Datatypes.S k)) with (i + 1 + Z.of_nat k) by lia. rewrite IH by (cbn in Hk; lia). reflexivity.
  Qed.
  Lemma last_base_app : forall (a l : list (edit K)), (forall v, ~ In (SetBase v) l) -> last_base (a ++ l) = last_base a.
  Proof.
    intros a l. induction l as [|e l IH] using rev_ind; intros H; [rewrite app_nil_r; auto|].
    rewrite app_assoc, last_base_snoc, IH by (intros v Hv; apply (H v); apply in_or_app; auto).
    destruct e as [v|i n|i q x y]; auto. exfalso. apply (H v). apply in_or_app. right. left. auto.
  Qed.
  Lemma curves_edits_b : forall l v, ~ In (SetBase v) (curves_edits l).
  Proof.
    induction l as [|[name w] l IH]; intros v I; [contradiction|]. destruct w as [|bo|z|dv|st|pts|o]; try contradiction I. cbn [curves_edits] in I.
    destruct (found (input_from_cname name) INPUTS_COUNT); [|contradiction]. destruct I as [I|I]; [discriminate|]. apply in_app_or in I. destruct I as [I|I]; [|eapply IH; eauto].
    revert I. generalize 0. induction (xys_of pts) as [|[x1 y1] r IHr]; intros i I; [contradiction|]. destruct I as [I|I]; [discriminate|eauto].
  Qed.

  Lemma curves_last : forall l a name pts, NoDup (map fst l) -> In (name, JArray pts) l ->
    Forall (fun kv => (exists i, input_name i = Some (fst kv)) /\ exists pts, snd kv = JArray pts) l ->
    last_n (a ++ curves_edits l) (input_from_cname name) = Z.of_nat (length pts) /\
    forall k, (k < length (xys_of pts))%nat ->
      last_point (a ++ curves_edits l) (input_from_cname name) (Z.of_nat k) = Some (nth k (xys_of pts) (nofZ 0, nofZ 0)).
  Proof.
    induction l as [|[n1 v1] l IH]; intros a name pts Nd I F; [contradiction|]. cbn [map] in Nd. inversion Nd as [|? ? N1 N2]; subst.
    inversion F as [|? ? (F1 & pts1 & Fp) F2]; subst. cbn [fst snd] in F1, Fp. subst v1. apply found_input in F1. cbn [curves_edits]. rewrite F1. destruct I as [I|I].
    - injection I as -> ->.
      assert (forall n2, input_from_cname n2 = input_from_cname name -> forall v2, ~ In (n2, v2) l) as Nx.
      { intros n2 Eq v2 I2. symmetry in Eq. apply same_input in Eq; auto. subst n2. apply N1. apply in_map_iff. exists (name, v2). auto. }
      split.
      + apply last_n_set. intros i n' I'. apply in_app_or in I'. destruct I' as [I'|I']; [exfalso; eapply point_edits_n; eauto|].
        apply curves_edits_n in I'. destruct I' as (n2 & v2 & I2 & ->). intros Eq. eapply Nx; eauto.
      + intros k Hk. match goal with |- last_point (a ++ ?e :: ?p ++ ?c) _ _ = _ => change (e :: p ++ c) with ([e] ++ p ++ c) end.
        rewrite !app_assoc. rewrite last_point_app.
        * apply (last_point_edits (input_from_cname name) (xys_of pts) _ 0 k Hk).
        * intros i q x y I'. apply curves_edits_p in I'. destruct I' as (n2 & v2 & I2 & ->). intros Eq. eapply Nx; eauto.
    - match goal with |- context [a ++ ?e :: ?p ++ ?c] => change (e :: p ++ c) with ([e] ++ p ++ c) end. rewrite !app_assoc. apply IH; auto.
  Qed.
  Lemma done_complete : forall name o, setting_done name o = true <-> exists v l, complete name o v l.
  Proof.
    intros name o. unfold setting_done, complete. rewrite andb_true_iff, found_setting.
    assert (forall l, curves_done l = true <-> Forall (fun kv => (exists i, input_name i = Some (fst kv)) /\ exists pts, snd kv = JArray pts) l) as D.
    { induction l as [|[n v] l IH]; [split; constructor|]. split.
      - destruct v as [|bo|z|dv|st|pts|ob]; cbn [curves_done]; intros H; try discriminate H. apply andb_prop in H. destruct H as [H1 H2].
        constructor; [split; [apply found_input; auto|eexists; reflexivity]|apply IH; auto].
      - intros F. inversion F as [|? ? (F1 & pts & Fp) F2]; subst. cbn [fst snd] in *. subst v. cbn [curves_done]. apply found_input in F1. rewrite F1. apply IH. auto. }
    split.
    - intros [H1 H2]. destruct (field o "base_value") as [v|]; [|discriminate]. destruct (field o "inputs") as [[| | | | | |l]|]; try discriminate.
      exists v, l. split; [auto|]. split; [auto|]. split; [auto|]. apply D. auto.
    - intros (v & l & H1 & -> & -> & H2). split; [auto|]. apply D. auto.
  Qed.

  (** What a loaded file leaves in the brush (no two keys of an object are the
      same, as in every tree json-c builds).  The result is TRUE exactly when one
      setting was applied completely.  Such a setting has the base value of the
      file and, for every input named there, exactly the points of the file;
      inputs that the file does not name keep the curve they had.  Settings that
      the file does not name, and everything else in the brush, are unchanged. *)
  Theorem C36_applied_partial : forall (b : brush) o v l ok b', reachable L b ->
    field o "version" = Some v -> int_of v 3 -> field o "settings" = Some (JObject l) ->
    NoDup (map fst l) -> from_string L J b (Some o) = Ok (ok, b') ->
    (ok = true <-> exists name s v li, In (name, s) l /\ complete name s v li) /\
    (forall name s v li i, In (name, s) l -> complete name s v li -> NoDup (map fst li) -> setting_name i = Some name ->
       get_base_value b' (Z.of_nat i) = Ok (number_of v) /\
       (forall iname pts j, In (iname, JArray pts) li -> input_name j = Some iname ->
          get_mapping_n b' (Z.of_nat i) (Z.of_nat j) = Ok (Z.of_nat (length pts)) /\
          forall k p, nth_error pts k = Some p -> exists q, point_of p = Some q /\
            get_mapping_point b' (Z.of_nat i) (Z.of_nat j) (Z.of_nat k) = Ok q) /\
       (forall iname j, input_name j = Some iname -> ~ In iname (map fst li) ->
          get_mapping_n b' (Z.of_nat i) (Z.of_nat j) = get_mapping_n b (Z.of_nat i) (Z.of_nat j))) /\
    (forall i, (forall name s, In (name, s) l -> setting_name i <> Some name) -> nth_error (b_settings b') i = nth_error (b_settings b) i) /\
    b_states b' = b_states b /\ b_buckets b' = b_buckets b /\ b_reset b' = b_reset b.
  Proof.
    intros b o v l ok b' R Ev En Es Nd A. apply int_get in En. pose proof R as R0. apply reachable_shape in R. destruct R as (_ & R & _). apply settings_history in R. destruct R as (h & H).
    assert (safe (Some o)) as Hs by (apply (C36_returns_iff_safe b); eauto). destruct (Hs o v eq_refl Ev) as (n & En' & Hl). apply int_get in En'. rewrite En in En'. injection En' as <-.
    destruct (Hl eq_refl _ Es) as (l' & El & F). injection El as <-. destruct (load_settings_ok l b h false H F) as (b1 & E1 & S1 & H1).
    cbn [from_string] in A. unfold load in A. rewrite ?field_get in A. rewrite Ev, En in A. cbn [obind] in A. change (3 =? 3) with true in A. cbn [negb] in A. rewrite Es in A.
    unfold load_settings in A. rewrite E1 in A. injection A as <- <-. cbn [orb].
    assert (forall i name, setting_name i = Some name -> (i < SETTINGS_COUNT)%nat) as Ri.
    { intros i name Hi. apply (proj1 (C27_setting_names name)) in Hi as Hc. assert (found (setting_from_cname name) SETTINGS_COUNT = true) as X by (apply found_setting; eauto).
      apply found_range in X. lia. }
    assert (forall i name, input_name i = Some name -> (i < INPUTS_COUNT)%nat) as Rj.
    { intros i name Hi. apply (proj1 (C27_input_names name)) in Hi as Hc. assert (found (input_from_cname name) INPUTS_COUNT = true) as X by (apply found_input; eauto).
      apply found_range in X. lia. }
    split; [|split; [|split]].
    - rewrite existsb_exists. split.
      + intros ((name, s) & I & D). apply done_complete in D. destruct D as (v1 & li & D). exists name, s, v1, li. auto.
      + intros (name & s & v1 & li & I & D). exists (name, s). split; [auto|]. apply done_complete. eauto.
    - intros name s v1 li i I (_ & Cb & Ci & Cl) Ndi Hi. pose proof (Ri _ _ Hi) as Hir. pose proof (proj1 (C27_setting_names name) i Hi) as Hc.
      assert (loaded h l i = h i ++ SetBase (number_of v1) :: curves_edits li) as Hh.
      { pose proof (loaded_named l h name s Nd I) as X. rewrite Hc, Nat2Z.id in X. rewrite X.
        - unfold setting_edits. rewrite Cb, Ci. reflexivity.
        - rewrite <- Hc. apply found_setting. eauto. }
      assert (0 <= Z.of_nat i < Z.of_nat SETTINGS_COUNT) as Hir' by lia.
      split; [|split].
      + rewrite (get_base_ok b1 _ (Z.of_nat i) H1 Hir'), Nat2Z.id, Hh. change (SetBase (number_of v1) :: curves_edits li) with ([SetBase (number_of v1)] ++ curves_edits li).
        rewrite app_assoc, last_base_app by apply curves_edits_b. rewrite last_base_snoc. reflexivity.
      + intros iname pts j Ij Hj. pose proof (Rj _ _ Hj) as Hjr. pose proof (proj1 (C27_input_names iname) j Hj) as Hcj.
        assert (0 <= Z.of_nat j < Z.of_nat INPUTS_COUNT) as Hjr' by lia.
        destruct (curves_last li (h i ++ [SetBase (number_of v1)]) iname pts Ndi Ij Cl) as (Ln & Lp). rewrite Hcj in Ln, Lp.
        rewrite <- app_assoc in Ln, Lp. cbn [app] in Ln, Lp. rewrite <- Hh in Ln, Lp.
        split; [rewrite (get_n_ok b1 _ _ _ H1 Hir' Hjr'), Nat2Z.id, Ln; reflexivity|].
        intros k p Hk. assert (k < length pts)%nat as Hkl by (apply nth_error_Some; congruence).
        assert (drawable pts) as (_ & xys & Hx & _).
        { assert (setting_safe name s) as Ss by (rewrite Forall_forall in F; apply (F (name, s) I)).
          destruct (Ss ltac:(eauto) ltac:(rewrite Cb; discriminate) _ Ci) as (li' & Eli & Sl). injection Eli as <-. clear - Sl Cl Ij.
          induction li as [|[n1 v1] li IH]; [contradiction|]. inversion Cl as [|? ? (C1 & p1 & Cp) C2]; subst. cbn [fst snd] in *. subst v1. cbn [curves_safe] in Sl.
          destruct (Sl C1) as [Sd Sl']. destruct Ij as [Ij|Ij]; [injection Ij as _ <-; exact Sd|auto]. }
        pose proof (xys_points _ _ Hx) as Xe. rewrite Xe in Lp. assert (length xys = length pts) as Lx by (unfold points_of in Hx; rewrite <- (map_length Some xys), <- Hx, map_length; auto).
        exists (nth k xys (nofZ 0, nofZ 0)). split.
        * assert (nth_error (map point_of pts) k = nth_error (map Some xys) k) as Y by (unfold points_of in Hx; rewrite Hx; auto).
          rewrite !nth_error_map, Hk in Y. cbn [option_map] in Y. rewrite (nth_error_nth' xys (nofZ 0, nofZ 0)) in Y by lia. cbn [option_map] in Y. injection Y as ->. reflexivity.
        * destruct (nth k xys (nofZ 0, nofZ 0)) as [x y] eqn:Exy. eapply get_point_ok; [exact H1|exact Hir'|exact Hjr'|rewrite Nat2Z.id, Ln; lia|].
          rewrite Nat2Z.id, Lp by lia. rewrite Exy. reflexivity.
      + intros iname j Hj Ni. pose proof (Rj _ _ Hj) as Hjr. pose proof (proj1 (C27_input_names iname) j Hj) as Hcj.
        assert (0 <= Z.of_nat j < Z.of_nat INPUTS_COUNT) as Hjr' by lia.
        rewrite (get_n_ok b1 _ _ _ H1 Hir' Hjr'), (get_n_ok b _ _ _ H Hir' Hjr'), Nat2Z.id, Hh. f_equal.
        apply last_n_app. intros i' n' [I'|I']; [discriminate|]. apply curves_edits_n in I'. destruct I' as (n2 & v2 & I2 & ->). rewrite <- Hcj. intros Eq.
        assert (found (input_from_cname iname) INPUTS_COUNT = true) as X by (apply found_input; eauto). symmetry in Eq. apply same_input in Eq; auto. subst n2.
        apply Ni. apply in_map_iff. exists (iname, v2). auto.
    - intros i Hn. (* the mapping itself is the same *)
      assert (forall l (b : brush) h any b2 r, history b h -> Forall (fun kv => setting_safe (fst kv) (snd kv)) l ->
        ofold (fun r kv => let '(any, b) := r in let* (ok, b) := load_setting L J b (fst kv) (snd kv) in Ok (any || ok, b)) l (any, b) = Ok (r, b2) ->
        (forall name s, In (name, s) l -> setting_name i <> Some name) -> nth_error (b_settings b2) i = nth_error (b_settings b) i) as G.
      { clear. induction l as [|[name s] l IH]; intros b h any b2 r H F A Hn; [injection A as _ <-; auto|]. cbn [ofold fst snd] in A.
        apply obind_ok in A. destruct A as ((any1, b1) & A1 & A). apply obind_ok in A1. destruct A1 as ((ok, b1') & E1 & A1). injection A1 as <- <-.
        inversion F as [|? ? F1 F2]; subst. cbn [fst snd] in F1. destruct (load_setting_ok name s b h H F1) as (bx & Ex & _ & Hx). rewrite E1 in Ex. injection Ex as _ <-.
        rewrite (IH b1' _ _ b2 r Hx F2 A) by (intros n' s' I'; apply (Hn n' s'); right; auto).
        assert (setting_name i <> Some name) as Ni by (apply (Hn name s); left; auto). clear - E1 Ni.
        assert (forall id (b b' : brush) e, brush_edit L b id e = Ok b' -> Z.to_nat id <> i -> nth_error (b_settings b') i = nth_error (b_settings b) i) as G1.
        { intros id b0 b0' e Hb Hd. assert (exists m, b_settings b0' = upd (b_settings b0) (Z.to_nat id) m) as (m & ->).
          { destruct e as [v|j n|j k x y]; cbn [brush_edit] in Hb.
            - unfold set_base_value in Hb. apply obind_ok in Hb. destruct Hb as (m & _ & Hb). injection Hb as <-. eexists. reflexivity.
            - unfold set_mapping_n in Hb. apply obind_ok in Hb. destruct Hb as (m & _ & Hb). apply obind_ok in Hb. destruct Hb as (m' & _ & Hb). injection Hb as <-. eexists. reflexivity.
            - unfold set_mapping_point in Hb. apply obind_ok in Hb. destruct Hb as (m & _ & Hb). apply obind_ok in Hb. destruct Hb as (m' & _ & Hb). injection Hb as <-. eexists. reflexivity. }
          clear - Hd. generalize (b_settings b0) as q. intros q. revert Hd. generalize (Z.to_nat id) as n. revert i. induction q; intros i [|n] Hd; cbn [upd]; auto; destruct i as [|i]; cbn [nth_error]; auto; try lia. }
        unfold load_setting in E1. rewrite ?field_get in E1. destruct (found (setting_from_cname name) SETTINGS_COUNT) eqn:Fd; cbn [negb] in E1; [|injection E1 as _ <-; auto].
        assert (Z.to_nat (setting_from_cname name) <> i) as Hd.
        { intros Eq. apply Ni. apply found_setting in Fd. destruct Fd as (i' & Fd). rewrite (proj1 (C27_setting_names name) i' Fd), Nat2Z.id in Eq. subst i'. exact Fd. }
        destruct s as [|bo|z|dv|st|pts|ob]; try (injection E1 as _ <-; reflexivity). destruct (field (JObject ob) "base_value") as [v|]; [|injection E1 as _ <-; auto].
        apply obind_ok in E1. destruct E1 as (b3 & E3 & E1). rewrite <- (G1 _ b b3 (SetBase _) E3 Hd). clear E3.
        destruct (field (JObject ob) "inputs") as [w|]; [|injection E1 as _ <-; auto]. destruct w as [| | | | | |li]; try discriminate.
        revert b3 E1. induction li as [|[n1 v1] li IH]; intros b3 E1; [injection E1 as _ <-; auto|]. destruct v1 as [|bo|z|dv|st|pts|ob1]; try (injection E1 as _ <-; reflexivity).
        cbn [load_inputs] in E1. destruct (negb _); [injection E1 as _ <-; auto|]. apply obind_ok in E1. destruct E1 as (b4 & E4 & E1). apply obind_ok in E1. destruct E1 as (b5 & E5 & E1).
        rewrite (IH _ E1). rewrite <- (G1 _ b3 b4 (SetN _ _) E4 Hd). clear - G1 E5 Hd. revert b4 E5. generalize 0. induction pts as [|p pts IHp]; intros k b4 E5; [injection E5 as <-; auto|].
        cbn [load_points] in E5. apply obind_ok in E5. destruct E5 as (jx & _ & E5). apply obind_ok in E5. destruct E5 as (jy & _ & E5). apply obind_ok in E5. destruct E5 as (b6 & E6 & E5).
        rewrite (IHp _ _ E5). apply (G1 _ b4 b6 (SetPoint _ _ _ _) E6 Hd). }
      exact (G l b h _ _ _ H F E1 Hn).
    - unfold same_but_settings in S1. rewrite S1. auto.
  Qed.
End Load.

(** ** Examples, in C floats, on brushes made by the toy session *)
Definition toy_json : jsonc mix64 := mkJsonc mix64 (fun _ => d_of_Z 0) (fun _ => Ok 3) (fun _ => 3).
Notation tjson := (json (car (dbl mix64))).
Local Open Scope string_scope.
Local Open Scope Z_scope.
Definition file (settings : tjson) : tjson := JObject [("comment", JString "x"); ("version", JInt 3); ("settings", settings)].
Definition setting (base : tjson) (inputs : tjson) : tjson := JObject [("base_value", base); ("inputs", inputs)].
Definition pt (x y : Z) : tjson := JArray [JDouble (dlit x 10 : dbl mix64); JDouble (dlit y 10 : dbl mix64)].
Definition one_curve (pts : list tjson) : tjson :=
  file (JObject [("radius_logarithmic", setting (JInt 1) (JObject [("pressure", JArray pts)]))]).
Definition toy_load (doc : tjson) (b : brush toy) : outcome (bool * brush toy) := from_string toy_lib toy_json b (Some doc).

(** A file with a base value and a three-point curve for the radius (the brush had
    a curve on another input), an unknown setting, and a setting whose curves
    stop at an unknown input. *)
Definition good_file : tjson :=
  file (JObject [("radius_logarithmic", setting (JDouble (dlit 3 2 : dbl mix64)) (JObject [("pressure", JArray [pt 0 0; pt 5 7; pt 10 9])]));
                 ("no_such_setting", JInt 1);
                 ("hardness", setting (JInt 1) (JObject [("no_such_input", JArray []); ("random", JArray [pt 0 0; pt 10 1])]))]).
Definition radius := zid SET_RADIUS_LOGARITHMIC.
Definition is_point (r : outcome (f32 * f32)) (x y : Z) : bool :=
  match r with Ok (a, b) => feq a (nar (m := mix64) (dlit x 10)) && feq b (nar (m := mix64) (dlit y 10)) | _ => false end.
Definition dirty_radius : calls :=
  [set_base SET_RADIUS_LOGARITHMIC (flit 5 1); CMapN (M := mix64) radius (zid INP_RANDOM) 2;
   CMapPoint (M := mix64) radius (zid INP_RANDOM) 0 f0 f0; CMapPoint (M := mix64) radius (zid INP_RANDOM) 1 f1 f1].
Notation loads doc P := (after 0 dirty_radius (fun b _ => match toy_load doc b with Ok (ok, b') => P ok b' | _ => false end)).
Lemma loads_ok : forall doc P, loads doc P = true ->
  exists b ok b', reachable toy_lib b /\ toy_load doc b = Ok (ok, b') /\ P ok b' = true.
Proof.
  intros doc P H. apply after_ok in H. destruct H as (b & w & Es & H). destruct (toy_load doc b) as [[ok b']| |] eqn:El; try discriminate H.
  exists b, ok, b'. split; [eapply session_reachable; [|exact Es]; lia|]. auto.
Qed.

Definition good_loaded (ok : bool) (b' : brush toy) : bool :=
  ok && match get_base_value b' radius with Ok v => feq v (flit 3 2) | _ => false end &&
  match get_mapping_n b' radius (zid INP_PRESSURE) with Ok n => n =? 3 | _ => false end &&
  is_point (get_mapping_point b' radius (zid INP_PRESSURE) 1) 5 7.
Example C36_case : exists b ok b', reachable toy_lib b /\ toy_load good_file b = Ok (ok, b') /\ good_loaded ok b' = true.
Proof. apply (loads_ok good_file good_loaded). vm_compute. reflexivity. Qed.
Example C36_case_safe : safe toy_json (Some good_file).
Proof.
  destruct C36_case as (b & ok & b' & R & Hl & _). apply (C36_returns_iff_safe toy_lib toy_json b); [exact R|]. eexists. exact Hl.
Qed.

(** *** The claim as stated is false *)

(** Well-formed documents that make an assertion fail: a curve of one point, a
    curve that goes back, a curve of 65 points, a point that is a number. *)
Definition bad_curves : list (list tjson) :=
  [[pt 0 0]; [pt 5 0; pt 2 1]; map (fun i => pt (Z.of_nat i) 0) (seq 0 65); [JInt 0; JInt 1]].
Theorem C36_aborts_refuted : Forall (fun pts => exists b, reachable toy_lib b /\ toy_load (one_curve pts) b = Abort) bad_curves.
Proof.
  assert (forall pts, after 0 [] (fun b _ => match toy_load (one_curve pts) b with Abort => true | _ => false end) = true ->
    exists b, reachable toy_lib b /\ toy_load (one_curve pts) b = Abort) as A.
  { intros pts H. apply after_ok in H. destruct H as (b & w & Es & H). exists b. split; [eapply session_reachable; [|exact Es]; lia|].
    destruct (toy_load (one_curve pts) b); try discriminate H. reflexivity. }
  repeat constructor; apply A; vm_compute; reflexivity.
Qed.
(** ... on every brush, with any numbers and any surface *)
Theorem C36_never_returns_refuted : forall M (L : mathlib M) (J : jsonc M) (E : env M) (b : brush E) pts, reachable L b ->
  (length pts = 1%nat \/ (64 < length pts)%nat \/ exists p, In p pts /\ forall c, p <> JArray c) ->
  forall r, from_string L J b (Some (JObject [("version", JInt 3); ("settings", JObject [("radius_logarithmic",
    JObject [("base_value", JInt 0); ("inputs", JObject [("pressure", JArray pts)])])])])) <> Ok r.
Proof.
  intros M L J E b pts R H r A.
  pose proof (proj1 (C36_returns_iff_safe L J b _ R) (ex_intro _ _ A)) as Hs.
  destruct (Hs _ (JInt 3) eq_refl eq_refl) as (n & En & Hl). apply int_get in En. injection En as <-. specialize (Hl eq_refl _ eq_refl). destruct Hl as (l & El & F).
  injection El as <-. inversion F as [|? ? F1 _]; subst. cbn [fst snd] in F1.
  destruct (F1 ltac:(exists SET_RADIUS_LOGARITHMIC; reflexivity) ltac:(discriminate) _ eq_refl) as (li & Eli & Sl). injection Eli as <-. cbn [curves_safe] in Sl.
  destruct (Sl ltac:(exists INP_PRESSURE; reflexivity)) as ((Hn & xys & Hx & _) & _). destruct H as [H|[H|(p & Ip & Np)]]; [lia|lia|].
  assert (In (point_of J p) (map Some xys)) as I by (unfold points_of in Hx; rewrite <- Hx; apply in_map; auto).
  apply in_map_iff in I. destruct I as (q & Eq & _). destruct p as [| | | | |c|]; try discriminate Eq. apply (Np c). reflexivity.
Qed.
(** Documents with which the loop over an object runs over something else. *)
Theorem C36_undefined_refuted : exists b, reachable toy_lib b /\
  toy_load (file (JArray [])) b = UB /\
  toy_load (file (JObject [("hardness", setting (JInt 1) (JArray []))])) b = UB.
Proof.
  destruct (after_ok 0 [] (fun b _ => match toy_load (file (JArray [])) b, toy_load (file (JObject [("hardness", setting (JInt 1) (JArray []))])) b with
    UB, UB => true | _, _ => false end) ltac:(vm_compute; reflexivity)) as (b & w & Es & H).
  exists b. split; [eapply session_reachable; [|exact Es]; lia|]. destruct (toy_load (file (JArray [])) b); try discriminate H.
  destruct (toy_load _ b); try discriminate H. auto.
Qed.
(** TRUE although the file's hardness curve for "random" was not applied, and the
    radius keeps the curve on "random" that the file does not have. *)
Theorem C36_incomplete_refuted : exists b b', reachable toy_lib b /\ toy_load good_file b = Ok (true, b') /\
  get_mapping_n b' (zid SET_HARDNESS) (zid INP_RANDOM) = Ok 0 /\ get_mapping_n b' radius (zid INP_RANDOM) = Ok 2.
Proof.
  destruct (loads_ok good_file (fun ok b' => ok && match get_mapping_n b' (zid SET_HARDNESS) (zid INP_RANDOM), get_mapping_n b' radius (zid INP_RANDOM) with
    Ok n, Ok k => (n =? 0) && (k =? 2) | _, _ => false end) ltac:(vm_compute; reflexivity)) as (b & ok & b' & R & Hl & H).
  exists b, b'. apply andb_prop in H. destruct H as [H1 H]. subst ok. split; [exact R|]. split; [exact Hl|].
  destruct (get_mapping_n b' (zid SET_HARDNESS) (zid INP_RANDOM)) as [n| |]; try discriminate H. destruct (get_mapping_n b' radius (zid INP_RANDOM)) as [k| |]; try discriminate H.
  apply andb_prop in H. destruct H as [H2 H3]. apply Z.eqb_eq in H2. apply Z.eqb_eq in H3. subst. auto.
Qed.

Print Assumptions C36_returns_iff_safe.
Print Assumptions C36_applied_partial.
Print Assumptions C36_aborts_refuted.
Print Assumptions C36_never_returns_refuted.
Print Assumptions C36_undefined_refuted.
Print Assumptions C36_incomplete_refuted.
