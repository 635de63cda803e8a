(** * C27 and C28: the tables of settings and inputs; reference counts *)
From Verif Require Import Base Settings Refcount.
From Coq Require Import String.
Local Open Scope string_scope.
Local Open Scope Z_scope.

(** ** C27 *)
Definition setting_name (id : nat) : option string := option_map st_cname (nth_error settings_info_array id).
Definition input_name (id : nat) : option string := option_map in_cname (nth_error inputs_info_array id).
(** comparison of decimals with positive denominators *)
Definition dec_le (a b : decimal) : Prop := fst a * snd b <= fst b * snd a.
Definition at_least (lo : option decimal) (a : decimal) : Prop := match lo with Some l => dec_le l a | None => True end.
Definition at_most (a : decimal) (hi : option decimal) : Prop := match hi with Some h => dec_le a h | None => True end.

Lemma first_match_some : forall names i id n, NoDup names -> nth_error names id = Some n -> first_match names i n = i + Z.of_nat id.
Proof.
  induction names as [|a names IH]; intros i id n ND E; [destruct id; discriminate|].
  inversion ND as [|? ? NI ND']; subst. destruct id as [|id]; simpl in *.
  - injection E as ->. rewrite String.eqb_refl. lia.
  - destruct (String.eqb_spec a n) as [->|N]; [exfalso; apply NI; eapply nth_error_In; eauto|].
    rewrite (IH _ _ _ ND' E). lia.
Qed.
Lemma first_match_none : forall names i n, ~ In n names -> first_match names i n = -1.
Proof.
  induction names as [|a names IH]; intros i n NI; simpl; [reflexivity|].
  destruct (String.eqb_spec a n) as [->|N]; [exfalso; apply NI; left; reflexivity|]. apply IH. intros H. apply NI. right. exact H.
Qed.

Definition nodupb (l : list string) : bool :=
  (fix go l := match l with [] => true | a :: l => negb (existsb (String.eqb a) l) && go l end) l.
Lemma nodupb_ok : forall l, nodupb l = true -> NoDup l.
Proof.
  induction l as [|a l IH]; intros H; [constructor|]. simpl in H. apply andb_prop in H as [A B]. constructor; [|apply IH; exact B].
  intros I. apply negb_true_iff in A. rewrite <- not_true_iff_false in A. apply A. apply existsb_exists. exists a. split; [exact I|apply String.eqb_refl].
Qed.
Lemma setting_names_differ : NoDup (map st_cname settings_info_array).
Proof. apply nodupb_ok. reflexivity. Qed.
Lemma input_names_differ : NoDup (map in_cname inputs_info_array).
Proof. apply nodupb_ok. reflexivity. Qed.

(** Looking a setting up by its name gives its number; any other string gives -1. *)
Theorem C27_setting_names : forall s : string,
  (forall id, setting_name id = Some s -> setting_from_cname s = Z.of_nat id) /\
  ((forall id, setting_name id <> Some s) -> setting_from_cname s = -1).
Proof.
  intros s. unfold setting_name, setting_from_cname. split.
  - intros id E. rewrite <- nth_error_map in E. apply (first_match_some _ 0 id s setting_names_differ E).
  - intros H. apply first_match_none. intros I. apply In_nth_error in I as (id & E). apply (H id). rewrite <- nth_error_map. exact E.
Qed.
Theorem C27_input_names : forall s : string,
  (forall id, input_name id = Some s -> input_from_cname s = Z.of_nat id) /\
  ((forall id, input_name id <> Some s) -> input_from_cname s = -1).
Proof.
  intros s. unfold input_name, input_from_cname. split.
  - intros id E. rewrite <- nth_error_map in E. apply (first_match_some _ 0 id s input_names_differ E).
  - intros H. apply first_match_none. intros I. apply In_nth_error in I as (id & E). apply (H id). rewrite <- nth_error_map. exact E.
Qed.
(** Two different settings, inputs or states never share a name; the number of
    names is what the API says. *)
Theorem C27_names_differ :
  (forall a b n, setting_name a = Some n -> setting_name b = Some n -> a = b) /\
  (forall a b n, input_name a = Some n -> input_name b = Some n -> a = b) /\
  NoDup states_array /\
  List.length settings_info_array = SETTINGS_COUNT /\ List.length inputs_info_array = INPUTS_COUNT /\ List.length states_array = STATES_COUNT.
Proof.
  assert (G : forall (l : list string) a b n, NoDup l -> nth_error l a = Some n -> nth_error l b = Some n -> a = b).
  { intros l a b n ND A B. rewrite NoDup_nth_error in ND. apply ND; [apply nth_error_Some; congruence|congruence]. }
  unfold setting_name, input_name. repeat split.
  - intros a b n A B. rewrite <- nth_error_map in A, B. exact (G _ _ _ _ setting_names_differ A B).
  - intros a b n A B. rewrite <- nth_error_map in A, B. exact (G _ _ _ _ input_names_differ A B).
  - apply nodupb_ok. reflexivity.
Qed.

Definition in_rangeb (s : setting_info) : bool :=
  (0 <? snd (st_def s)) &&
  match st_min s with Some l => (0 <? snd l) && (fst l * snd (st_def s) <=? fst (st_def s) * snd l) | None => true end &&
  match st_max s with Some h => (0 <? snd h) && (fst (st_def s) * snd h <=? fst h * snd (st_def s)) | None => true end.
Definition input_rangeb (s : input_info) : bool :=
  let le a b := fst a * snd b <=? fst b * snd a in
  le (in_soft_min s) (in_normal s) && le (in_normal s) (in_soft_max s) &&
  match in_hard_min s with Some l => le l (in_soft_min s) | None => true end &&
  match in_hard_max s with Some l => le (in_soft_max s) l | None => true end.
(** Every default lies within the documented range of its setting, and the ranges
    of every input are nested. *)
Theorem C27_defaults_in_range :
  Forall (fun s => at_least (st_min s) (st_def s) /\ at_most (st_def s) (st_max s)) settings_info_array /\
  Forall (fun i => dec_le (in_soft_min i) (in_normal i) /\ dec_le (in_normal i) (in_soft_max i) /\
                   at_least (in_hard_min i) (in_soft_min i) /\ at_most (in_soft_max i) (in_hard_max i)) inputs_info_array.
Proof.
  assert (A : forallb in_rangeb settings_info_array = true) by reflexivity.
  assert (B : forallb input_rangeb inputs_info_array = true) by reflexivity.
  split; apply Forall_forall; intros s I.
  - rewrite forallb_forall in A. specialize (A s I). unfold in_rangeb in A.
    apply andb_prop in A as [A2 A3]. apply andb_prop in A2 as [_ A2]. unfold at_least, at_most, dec_le. split.
    + destruct (st_min s); [|exact Logic.I]. apply andb_prop in A2 as [_ A2]. apply Z.leb_le in A2. exact A2.
    + destruct (st_max s); [|exact Logic.I]. apply andb_prop in A3 as [_ A3]. apply Z.leb_le in A3. exact A3.
  - rewrite forallb_forall in B. specialize (B s I). unfold input_rangeb in B.
    apply andb_prop in B as [B B4]. apply andb_prop in B as [B B3]. apply andb_prop in B as [B1 B2].
    apply Z.leb_le in B1, B2. unfold at_least, at_most, dec_le. repeat split; auto.
    + destruct (in_hard_min s); [apply Z.leb_le in B3; exact B3|exact Logic.I].
    + destruct (in_hard_max s); [apply Z.leb_le in B4; exact B4|exact Logic.I].
Qed.

Example C27_case : setting_name 56 = Some "elliptical_dab_ratio" /\ setting_from_cname "elliptical_dab_ratio" = 56 /\
  setting_from_cname "opaque_" = -1 /\ input_from_cname "barrel_rotation" = 17.
Proof. repeat split. Qed.

(** ** C28 *)

(** How many references the users of the object hold after the given calls,
    starting with the one the creator gets; [None] when someone used a reference
    they did not have. *)
Fixpoint held (cs : list ref_call) (h : Z) : option Z :=
  match cs with
  | [] => Some h
  | c :: cs =>
      if h <=? 0 then None
      else match c with Ref => if h + 1 <=? INT_MAX then held cs (h + 1) else None | Unref => held cs (h - 1) end
  end.
Definition exists_still (o : robj) : Prop := ro_count o <> None.

Lemma ref_run_held : forall cs h o h', 0 <= h <= INT_MAX ->
  (0 < h -> ro_count o = Some h /\ ro_destroyed o = 0%nat) -> (h = 0 -> ro_count o = None /\ ro_destroyed o = 1%nat) ->
  held cs h = Some h' ->
  exists o', ref_run cs o = Ok o' /\ 0 <= h' <= INT_MAX /\
    (0 < h' -> ro_count o' = Some h' /\ ro_destroyed o' = 0%nat) /\ (h' = 0 -> ro_count o' = None /\ ro_destroyed o' = 1%nat).
Proof.
  induction cs as [|c cs IH]; intros h o h' R A B H.
  - simpl in H. injection H as <-. exists o. auto.
  - cbn [held] in H. destruct (Z.leb_spec h 0) as [L|L]; [discriminate|]. destruct (A L) as (A1 & A2). clear A B.
    unfold ref_run in *. cbn [ofold]. destruct c; unfold ref_step, ref_inc, ref_dec; rewrite A1.
    + destruct (Z.leb_spec (h + 1) INT_MAX) as [M|M]; [|discriminate].
      rewrite int_val_ok by (unfold INT_MIN in *; lia). cbn [obind]. apply (IH (h + 1)); cbn [ro_count ro_destroyed]; [lia| | |exact H].
      * intros _. split; [reflexivity|exact A2]. * lia.
    + rewrite int_val_ok by (unfold INT_MIN in *; lia). cbn [obind]. destruct (Z.eqb_spec (h - 1) 0) as [E|E].
      * cbn [obind]. apply (IH (h - 1)); cbn [ro_count ro_destroyed]; [lia|lia| |exact H]. intros _. rewrite A2. split; reflexivity.
      * cbn [obind]. apply (IH (h - 1)); cbn [ro_count ro_destroyed]; [lia| |lia|exact H]. intros _. rewrite A2. split; reflexivity.
Qed.

(** For every sequence of calls in which only held references are used, the
    object exists as long as somebody holds a reference and has been destroyed
    exactly once as soon as nobody does. *)
Theorem C28_destroyed_with_last_reference : forall cs h, held cs 1 = Some h ->
  exists o, ref_run cs ref_new = Ok o /\
    (0 < h -> exists_still o /\ ro_destroyed o = 0%nat) /\ (h = 0 -> ~ exists_still o /\ ro_destroyed o = 1%nat).
Proof.
  intros cs h H. destruct (ref_run_held cs 1 ref_new h) as (o & E & _ & A & B); try exact H.
  - unfold INT_MAX. lia. - intros _. split; reflexivity. - lia.
  - exists o. split; [exact E|]. unfold exists_still. split.
    + intros P. destruct (A P) as (A1 & A2). rewrite A1. split; [discriminate|exact A2].
    + intros P. destruct (B P) as (B1 & B2). rewrite B1. split; [intros Q; apply Q; reflexivity|exact B2].
Qed.

Example C28_case : held [Ref; Ref; Unref; Ref; Unref; Unref; Unref] 1 = Some 0 /\ held [Ref; Unref; Ref] 1 = Some 2.
Proof. split; reflexivity. Qed.

Print Assumptions C27_setting_names.
Print Assumptions C27_defaults_in_range.
Print Assumptions C28_destroyed_with_last_reference.
