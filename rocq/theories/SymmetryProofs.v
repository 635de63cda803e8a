(** Proofs about Symmetry.v: the array of transforms. *)
From Verif Require Import Base F32 F32Proofs Arith Rect Symmetry.
From Coq Require Import Reals Lra ZifyBool.
From Flocq Require Import Core.Core IEEE754.BinarySingleNaN.
Local Open Scope Z_scope.

(** the largest number of lines considered: 2^22 *)
Definition MAXLINES : Z := 4194304.

Lemma fl_small : forall z, Z.abs z <= 16777216 -> fl z = z.
Proof.
  intros z H. unfold fl. destruct (f_of_Z_exact z H) as (V & F).
  rewrite f_to_Z_ok; [rewrite V, Ztrunc_IZR; reflexivity|exact F|rewrite V, Ztrunc_IZR; lia].
Qed.

Lemma zrange_cons : forall lo n, zrange lo (S n) = lo :: zrange (lo + 1) n.
Proof.
  intros. unfold zrange. cbn [seq map]. f_equal; [change (Z.of_nat 0) with 0; lia|]. rewrite <- seq_shift, map_map. apply map_ext. intros. lia.
Qed.
Lemma filter_all : forall X (p : X -> bool) l, (forall x, In x l -> p x = true) -> filter p l = l.
Proof. induction l; cbn; intros; auto. rewrite H by auto. f_equal. auto. Qed.
Lemma upto_small : forall lo lines, 0 <= lo -> lines <= 16777216 -> upto lo lines = zrange lo (Z.to_nat (lines - lo)).
Proof.
  intros. unfold upto. apply filter_all. intros i Hi. apply in_zrange in Hi. rewrite fl_small by lia. apply Z.ltb_lt. lia.
Qed.

Lemma nth_error_upd : forall X (l : list X) n m v, (n < length l)%nat ->
  nth_error (upd l n v) m = if Nat.eqb n m then Some v else nth_error l m.
Proof. induction l; intros [|n] [|m] v H; cbn in *; try lia; auto. apply IHl. lia. Qed.

Section Proofs.
  Context {A : arith} (G : trigops A).
  Implicit Types (l : list (option (mat A))) (s : symstate A).

  Lemma set_loop : forall (f : Z -> mat A) (g : Z -> Z) b, (forall i, g i = b + i) -> forall n lo l,
    0 <= b + lo -> b + lo + Z.of_nat n <= Z.of_nat (length l) ->
    exists l', ofold (fun ms i => set_mat ms (g i) (f i)) (zrange lo n) (Some l) = Ok (Some l') /\ length l' = length l /\
      forall k, 0 <= k -> nth_error l' (Z.to_nat k) =
        if (b + lo <=? k) && (k <? b + lo + Z.of_nat n) then Some (Some (f (k - b))) else nth_error l (Z.to_nat k).
  Proof.
    intros f g b Hg. induction n as [|n IH]; intros lo l H1 H2.
    - exists l. split; [reflexivity|]. split; [auto|]. intros. destruct ((b + lo <=? k) && (k <? b + lo + Z.of_nat 0)) eqn:E; [lia|auto].
    - rewrite zrange_cons. cbn [ofold]. unfold set_mat at 1. rewrite Hg.
      destruct ((0 <=? b + lo) && (b + lo <? Z.of_nat (length l))) eqn:E; [|lia]. cbn [obind].
      destruct (IH (lo + 1) (upd l (Z.to_nat (b + lo)) (Some (f lo)))) as (l' & E1 & E2 & E3); [lia|rewrite upd_length; lia|].
      exists l'. split; [exact E1|]. split; [rewrite E2, upd_length; auto|]. intros k Hk. rewrite E3 by auto.
      rewrite nth_error_upd by lia.
      destruct (Nat.eqb_spec (Z.to_nat (b + lo)) (Z.to_nat k)).
      + assert (k = b + lo) as -> by lia. replace (b + lo - b) with lo by lia.
        destruct ((b + (lo + 1) <=? b + lo) && (b + lo <? b + (lo + 1) + Z.of_nat n)) eqn:X; [lia|].
        destruct ((b + lo <=? b + lo) && (b + lo <? b + lo + Z.of_nat (S n))) eqn:Y; [auto|lia].
      + destruct ((b + (lo + 1) <=? k) && (k <? b + (lo + 1) + Z.of_nat n)) eqn:X;
        destruct ((b + lo <=? k) && (k <? b + lo + Z.of_nat (S n))) eqn:Y; auto; lia.
  Qed.

  Lemma map_loop : forall (h : mat A -> mat A) n lo l, 0 <= lo -> lo + Z.of_nat n <= Z.of_nat (length l) ->
    (forall k, lo <= k < lo + Z.of_nat n -> exists m, nth_error l (Z.to_nat k) = Some (Some m)) ->
    exists l', ofold (fun ms i => let* m := get_mat ms i in set_mat ms i (h m)) (zrange lo n) (Some l) = Ok (Some l') /\ length l' = length l /\
      forall k, lo <= k < lo + Z.of_nat n -> forall m, nth_error l (Z.to_nat k) = Some (Some m) -> nth_error l' (Z.to_nat k) = Some (Some (h m)).
  Proof.
    intros h n lo l H1 H2 H3.
    enough (exists l', ofold (fun ms i => let* m := get_mat ms i in set_mat ms i (h m)) (zrange lo n) (Some l) = Ok (Some l') /\ length l' = length l /\
      forall k, 0 <= k -> (lo <= k < lo + Z.of_nat n -> forall m, nth_error l (Z.to_nat k) = Some (Some m) -> nth_error l' (Z.to_nat k) = Some (Some (h m))) /\
        (~ (lo <= k < lo + Z.of_nat n) -> nth_error l' (Z.to_nat k) = nth_error l (Z.to_nat k))) as (l' & E1 & E2 & E3).
    { exists l'. split; [exact E1|]. split; [exact E2|]. intros k Hk. apply E3; lia. }
    revert lo l H1 H2 H3. induction n as [|n IH]; intros lo l H1 H2 H3.
    - exists l. split; [reflexivity|]. split; [auto|]. intros. split; [lia|auto].
    - rewrite zrange_cons. cbn [ofold]. destruct (H3 lo) as (m & Em); [lia|].
      unfold get_mat at 1. destruct (Z.leb_spec 0 lo); [|lia]. rewrite Em. cbn [obind]. unfold set_mat at 1.
      destruct ((0 <=? lo) && (lo <? Z.of_nat (length l))) eqn:E; [|lia]. cbn [obind].
      destruct (IH (lo + 1) (upd l (Z.to_nat lo) (Some (h m)))) as (l' & E1 & E2 & E3); [lia|rewrite upd_length; lia| |].
      { intros k Hk. rewrite nth_error_upd by lia. destruct (Nat.eqb_spec (Z.to_nat lo) (Z.to_nat k)); [lia|]. apply H3. lia. }
      exists l'. split; [exact E1|]. split; [rewrite E2, upd_length; auto|]. intros k Hk.
      destruct (E3 k Hk) as (E4 & E5). rewrite nth_error_upd in E4, E5 by lia.
      destruct (Nat.eqb_spec (Z.to_nat lo) (Z.to_nat k)).
      + assert (k = lo) as -> by lia. split; [|lia]. intros _ m' Em'. rewrite Em in Em'. injection Em' as <-. apply E5. lia.
      + split; intros; [apply E4; auto; lia|apply E5; lia].
  Qed.

  (** number of transforms of a state, and the transforms themselves *)
  Definition count (s : symstate A) : Z :=
    match s_type s with Vertical | Horizontal => 1 | VertHorz => 3 | Rotational => s_lines s - 1 | Snowflake => 2 * s_lines s - 1 | OtherType _ => 0 end.
  Definition base (s : symstate A) (i : Z) : mat A :=
    let angle := deg_to_rad G (s_angle s) in
    let rot := turn_part G (s_lines s) in
    let m := centre_origin s in
    match s_type s with
    | Horizontal => reflect G m (nneg angle)
    | Vertical => reflect G m (nneg (quarter_turn G angle))
    | VertHorz =>
        let a := reflect G m (nneg angle) in
        let b := reflect G a (nneg (quarter_turn G angle)) in
        if i =? 0 then a else if i =? 1 then b else reflect G b (nneg angle)
    | Rotational => rotate_cw G m (nmul rot (nofZ (i + 1)))
    | Snowflake =>
        if i <? s_lines s - 1 then rotate_cw G m (nmul rot (nofZ (i + 1)))
        else let j := i - (s_lines s - 1) in
             reflect G (rotate_cw G m (nmul rot (nofZ j))) (nsub (nmul (nofZ (- j)) rot) angle)
    | OtherType _ => m
    end.
  Definition expected (s : symstate A) (i : Z) : mat A := translate (base s i) (s_cx s) (s_cy s).

  Definition sane (s : symstate A) : Prop := 0 <= s_lines s <= MAXLINES /\
    match s_type s with Rotational | Snowflake => 2 <= s_lines s | _ => True end.

  Lemma required_count : forall s, sane s -> num_matrices_required s = Ok (count s).
  Proof.
    intros s (H & H2). unfold num_matrices_required, count, MAXLINES in *. destruct (s_type s); auto.
    - rewrite fl_small by lia. apply int_val_ok. unfold INT_MIN, INT_MAX. lia.
    - rewrite (fl_small (2 * s_lines s)) by lia. rewrite fl_small by lia. apply int_val_ok. unfold INT_MIN, INT_MAX. lia.
  Qed.
  Lemma count_range : forall s, sane s -> 0 <= count s <= 8388608.
  Proof. intros s (H & H2). unfold count, MAXLINES in *. destruct (s_type s); lia. Qed.

  Lemma set_mat_ok : forall l i m, 0 <= i < Z.of_nat (length l) -> set_mat (Some l) i m = Ok (Some (upd l (Z.to_nat i) (Some m))).
  Proof. intros. unfold set_mat. destruct ((0 <=? i) && (i <? Z.of_nat (length l))) eqn:E; [auto|lia]. Qed.
  Lemma get_mat_ok : forall l i m, 0 <= i -> nth_error l (Z.to_nat i) = Some (Some m) -> get_mat (Some l) i = Ok m.
  Proof. intros. unfold get_mat. destruct (Z.leb_spec 0 i); [|lia]. rewrite H0. auto. Qed.

  Lemma fill_ok : forall s l, sane s -> (forall z, s_type s <> OtherType z) -> count s <= Z.of_nat (length l) ->
    exists l', fill_matrices G s (Some l) = Ok (Some (Some l')) /\ length l' = length l /\
      forall k, 0 <= k < count s -> nth_error l' (Z.to_nat k) = Some (Some (base s k)).
  Proof.
    intros s l (H & H2) Ho Hl. unfold count in *. unfold fill_matrices, base, MAXLINES in *.
    pose proof (fun lo (h : 0 <= lo) => upto_small lo (s_lines s) h ltac:(lia)) as Hu.
    destruct (s_type s) eqn:Et; [| | | | |exfalso; apply (Ho z); auto].
    - rewrite set_mat_ok by lia. eexists. split; [reflexivity|]. split; [apply upd_length|]. intros k Hk.
      rewrite nth_error_upd by lia. replace k with 0 by lia. reflexivity.
    - rewrite set_mat_ok by lia. eexists. split; [reflexivity|]. split; [apply upd_length|]. intros k Hk.
      rewrite nth_error_upd by lia. replace k with 0 by lia. reflexivity.
    - cbv zeta. rewrite set_mat_ok by lia. cbn [obind].
      rewrite (get_mat_ok _ 0 (reflect G (centre_origin s) (nneg (deg_to_rad G (s_angle s))))); [|lia|rewrite nth_error_upd by lia; reflexivity].
      cbn [obind]. rewrite set_mat_ok by (rewrite upd_length; lia). cbn [obind].
      rewrite (get_mat_ok _ 1 (reflect G (reflect G (centre_origin s) (nneg (deg_to_rad G (s_angle s)))) (nneg (quarter_turn G (deg_to_rad G (s_angle s))))));
        [|lia|rewrite nth_error_upd by (rewrite upd_length; lia); reflexivity].
      cbn [obind]. rewrite set_mat_ok by (rewrite !upd_length; lia). cbn [obind].
      eexists. split; [reflexivity|]. split; [rewrite !upd_length; auto|]. intros k Hk.
      rewrite nth_error_upd by (rewrite !upd_length; lia). rewrite nth_error_upd by (rewrite upd_length; lia). rewrite nth_error_upd by lia.
      assert (k = 0 \/ k = 1 \/ k = 2) as [->|[->| ->]] by lia; reflexivity.
    - rewrite Hu by lia.
      destruct (set_loop (fun i => rotate_cw G (centre_origin s) (nmul (turn_part G (s_lines s)) (nofZ i))) (fun i => i - 1) (-1))
        with (n := Z.to_nat (s_lines s - 1)) (lo := 1) (l := l) as (l' & E1 & E2 & E3); [lia|lia|lia|].
      rewrite E1. cbn [obind]. exists l'. split; [reflexivity|]. split; [auto|]. intros k Hk. rewrite E3 by lia.
      destruct ((-1 + 1 <=? k) && (k <? -1 + 1 + Z.of_nat (Z.to_nat (s_lines s - 1)))) eqn:E; [|lia]. replace (k - -1) with (k + 1) by lia. reflexivity.
    - rewrite fl_small by lia. rewrite int_val_ok by (unfold INT_MIN, INT_MAX; lia). cbn [obind]. rewrite !Hu by lia.
      destruct (set_loop (fun i => reflect G (rotate_cw G (centre_origin s) (nmul (turn_part G (s_lines s)) (nofZ i)))
                          (nsub (nmul (nofZ (- i)) (turn_part G (s_lines s))) (deg_to_rad G (s_angle s)))) (fun i => s_lines s - 1 + i) (s_lines s - 1))
        with (n := Z.to_nat (s_lines s - 0)) (lo := 0) (l := l) as (l1 & E1 & E2 & E3); [lia|lia|lia|].
      rewrite E1. cbn [obind].
      destruct (set_loop (fun i => rotate_cw G (centre_origin s) (nmul (turn_part G (s_lines s)) (nofZ i))) (fun i => i - 1) (-1))
        with (n := Z.to_nat (s_lines s - 1)) (lo := 1) (l := l1) as (l' & F1 & F2 & F3); [lia|lia|lia|].
      rewrite F1. cbn [obind]. exists l'. split; [reflexivity|]. split; [lia|]. intros k Hk. rewrite F3, E3 by lia.
      destruct ((-1 + 1 <=? k) && (k <? -1 + 1 + Z.of_nat (Z.to_nat (s_lines s - 1)))) eqn:X.
      + destruct (Z.ltb_spec k (s_lines s - 1)); [|lia]. replace (k - -1) with (k + 1) by lia. reflexivity.
      + destruct (Z.ltb_spec k (s_lines s - 1)); [lia|].
        destruct ((s_lines s - 1 + 0 <=? k) && (k <? s_lines s - 1 + 0 + Z.of_nat (Z.to_nat (s_lines s - 0)))) eqn:Y; [reflexivity|lia].
  Qed.

  (** ** The invariant *)
  Record wfs (d : symdata A) : Prop := {
    w_cur : sane (sd_cur d);
    w_pend : sane (sd_pend d);
    w_num : 0 <= sd_num d;
    w_room : sd_num d = 0 \/ exists l, sd_mats d = Some l /\ sd_num d <= Z.of_nat (length l) /\ count (sd_cur d) <= sd_num d /\
             forall k, 0 <= k < count (sd_cur d) -> nth_error l (Z.to_nat k) = Some (Some (expected (sd_cur d) k)) }.

  Lemma to_int_small : forall z, 0 <= z < 2147483648 -> to_int z = z.
  Proof. intros. unfold to_int. rewrite Z.mod_small; lia. Qed.

  Lemma alloc_ok : forall ok (d : symdata A) n, 0 < n <= 16777216 ->
    allocate_matrices ok d n = (ok, mkSymData (sd_cur d) (sd_pend d) (sd_changes d) (sd_active d) (if ok then n else 0)
       (if ok then Some (resize (match sd_mats d with Some l => l | None => [] end) (Z.to_nat n)) else sd_mats d)).
  Proof.
    intros ok d n H. unfold allocate_matrices. rewrite to_int_small by lia. destruct (Z.ltb_spec 0 (n * 36)); [|lia].
    rewrite andb_true_r. destruct ok; auto. rewrite Z.div_mul by lia. reflexivity.
  Qed.
  Lemma resize_length : forall X (l : list (option X)) n, length (resize l n) = n.
  Proof. intros. unfold resize. rewrite app_length, firstn_length, repeat_length. lia. Qed.

  Lemma reserve : forall ok (d : symdata A) n, wfs d -> 0 < n <= 16777216 ->
    exists good l d1, (if sd_num d <? n then allocate_matrices ok d n else (true, d)) = (good, d1) /\
        sd_cur d1 = sd_cur d /\ sd_pend d1 = sd_pend d /\ sd_active d1 = sd_active d /\
        (good = true -> sd_mats d1 = Some l /\ n <= sd_num d1 <= Z.of_nat (length l)) /\
        (good = false -> ok = false /\ sd_num d1 = 0 /\ sd_mats d1 = sd_mats d).
  Proof.
    intros ok d n [Wc Wp Wn Wr] Hn. destruct (Z.ltb_spec (sd_num d) n).
    - rewrite alloc_ok by lia. exists ok, (resize match sd_mats d with Some l => l | None => [] end (Z.to_nat n)).
      eexists. split; [reflexivity|]. cbn [sd_cur sd_pend sd_active sd_num sd_mats]. do 3 (split; [auto|]). split.
      + intros ->. split; [reflexivity|]. rewrite resize_length. lia.
      + intros ->. auto.
    - destruct Wr as [Wr|(l & El & Hl & _)]; [lia|]. exists true, l, d. do 4 (split; [auto|]). split; [intros _; split; auto|discriminate].
  Qed.

  (** what begin_atomic does to the symmetry data *)
  Lemma update_ok : forall ok (d : symdata A), wfs d -> exists d', update_symmetry_state G ok d = Ok d' /\ wfs d' /\
    sd_pend d' = sd_pend d /\ sd_active d' = sd_active d /\
    ((sd_cur d' = sd_pend d /\ (ok = true -> sd_num d <> 0 -> sd_num d' <> 0) /\ (count (sd_pend d) = 0 \/ sd_num d' <> 0))
     \/ (d' = d /\ (sd_changes d = false \/ states_equal (sd_cur d) (sd_pend d) = true))
     \/ (ok = false /\ sd_cur d' = sd_cur d /\ sd_num d' = 0)).
  Proof.
    intros ok d W. destruct (W) as [Wc Wp Wn Wr]. unfold update_symmetry_state.
    destruct (negb (sd_changes d) || states_equal (sd_cur d) (sd_pend d)) eqn:E.
    { exists d. split; [auto|]. split; [auto|]. split; [auto|]. split; [auto|]. right. left. split; auto.
      apply orb_true_iff in E. destruct E as [E|E]; auto. left. destruct (sd_changes d); auto; discriminate. }
    rewrite required_count by auto. cbn [obind]. pose proof (count_range _ Wp) as Hc.
    destruct (s_type (sd_pend d)) eqn:Et.
    6: { (* unknown type *)
      assert (count (sd_pend d) = 0) as C0 by (unfold count; rewrite Et; auto). rewrite C0.
      destruct (Z.ltb_spec (sd_num d) 0); [lia|]. cbn [negb]. unfold fill_matrices. rewrite Et. cbn [obind].
      eexists. split; [reflexivity|]. split; [|split; [auto|split; [auto|left; cbn [sd_cur sd_num]; auto]]].
      constructor; cbn [sd_cur sd_pend sd_num sd_mats]; auto. destruct Wr as [Wr|(l & El & Hl & _)]; auto. right. exists l.
      rewrite C0. split; auto. split; auto. split; [lia|]. intros; lia. }
    all: assert (0 < count (sd_pend d)) as Cp by (pose proof (proj2 Wp) as X; unfold count; rewrite Et in *; lia).
    all: assert (forall z, s_type (sd_pend d) <> OtherType z) as No by (intros z X; congruence).
    all: destruct (reserve ok d (count (sd_pend d)) W ltac:(lia)) as (good & l & d1 & -> & D1 & D2 & D3 & D4 & D5).
    all: destruct good; cbn [negb];
      [|destruct (D5 eq_refl) as (-> & N0 & M0); exists d1; split; [auto|]; split;
        [constructor; rewrite ?D1, ?D2; auto; rewrite N0; auto; lia|]; repeat (split; [auto; fail|]); right; right; auto].
    all: destruct (D4 eq_refl) as (M1 & R1); rewrite M1, D2;
      destruct (fill_ok (sd_pend d) l Wp No) as (l2 & -> & L2 & F2); [lia|]; cbn [obind];
      destruct (map_loop (fun m => translate m (s_cx (sd_pend d)) (s_cy (sd_pend d))) (Z.to_nat (count (sd_pend d))) 0 l2) as (l3 & E3 & L3 & F3);
      [lia|lia|intros k Hk; eexists; apply F2; lia|]; rewrite E3; cbn [obind].
    all: eexists; split; [reflexivity|]; cbn [sd_cur sd_pend sd_active sd_num]; rewrite ?D3; split;
      [|repeat (split; [auto; fail|]); left; split; auto; split; [intros; lia|right; lia]].
    all: constructor; cbn [sd_cur sd_pend sd_active sd_num sd_mats]; rewrite ?D2; auto; [lia|];
      right; exists l3; split; auto; split; [lia|]; split; [lia|]; intros k Hk; apply F3; [lia|]; apply F2; lia.
  Qed.

  Lemma set_pending_wf : forall (d : symdata A) active cx cy angle ty lines, wfs d -> lines <= MAXLINES ->
    wfs (set_pending d active cx cy angle ty lines).
  Proof.
    intros d active cx cy angle ty lines [W1 W2 W3 W4] H. unfold set_pending, MAXLINES in *. rewrite fl_small by lia.
    constructor; cbn [sd_cur sd_pend sd_num sd_mats]; auto. split; cbn [s_lines s_type]; unfold MAXLINES; [lia|]. destruct ty; auto; lia.
  Qed.

  Lemma default_wf : forall ok, exists d, default_symmetry_data G ok = Ok d /\ wfs d /\ sd_active d = false /\
    sd_pend d = mkSym Vertical (nofZ 0) (nofZ 0) (nofZ 0) 2 /\
    (ok = true -> sd_num d <> 0 /\ sd_cur d = sd_pend d).
  Proof.
    intros ok. unfold default_symmetry_data. rewrite alloc_ok by lia. cbv beta iota.
    assert (wfs (mkSymData (mkSym (OtherType (-1)) (nofZ 0) (nofZ 0) (nofZ 0) 0) (mkSym Vertical (nofZ 0) (nofZ 0) (nofZ 0) 2) true false
        (if ok then 16 else 0) (if ok then Some (resize [] (Z.to_nat 16)) else None) : symdata A)) as W.
    { constructor; cbn [sd_cur sd_pend sd_num sd_mats]; try (split; cbn; unfold MAXLINES; auto; lia). { destruct ok; lia. }
      destruct ok; auto. right. exists (resize [] (Z.to_nat 16)). split; auto. rewrite resize_length. cbn. split; [lia|]. split; [lia|]. intros; lia. }
    destruct ok.
    - destruct (update_ok true _ W) as (d & E & W' & P & Ac & C). exists d. split; [exact E|]. split; [auto|]. split; [auto|]. split; [auto|].
      intros _. destruct C as [(C1 & C2 & C3)|[(-> & [C|C])|(C & _)]]; try discriminate.
      rewrite P. split; [apply C2; cbn; lia|auto].
    - eexists. split; [reflexivity|]. split; [exact W|]. split; [reflexivity|]. split; [reflexivity|]. discriminate.
  Qed.
End Proofs.
