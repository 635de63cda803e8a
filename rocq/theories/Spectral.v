(** helpers.c 518-606: colours as ten-band spectra, and mixing two colours.

    Written over a pair of arithmetics like Color.v; [powf] is the C library's
    function, a parameter here. *)
From Verif Require Import Base F32 Arith Color.
Local Open Scope Z_scope.

Section Spectral.
  Context (M : mixed) (powf : sng M -> sng M -> sng M).
  Notation S := (sng M).
  Notation D := (dbl M).
  Notation d z := (@nofZ (dbl M) z).
  Notation s z := (@nofZ (sng M) z).
  Notation W := (@wid M).
  Notation N := (@nar M).
  (* a float constant initialised with the double literal n/d *)
  Notation fl n k := (@nar M (@dec M n k)).

  (* T_MATRIX_SMALL[0], helpers.c 38-45 *)
  Definition T_matrix_r : list S :=
    [fl 26595621243689 1000000000000000; fl 49779426257903 1000000000000000; fl 22449850859496 1000000000000000;
     fl (-218453689278271) 1000000000000000; fl (-256894883201278) 1000000000000000; fl 445881722194840 1000000000000000;
     fl 772365886289756 1000000000000000; fl 194498761382537 1000000000000000; fl 14038157587820 1000000000000000;
     fl 7687264480513 1000000000000000].
  (* T_MATRIX_SMALL[1], helpers.c 38-45 *)
  Definition T_matrix_g : list S :=
    [fl (-32601672674412) 1000000000000000; fl (-61021043498478) 1000000000000000; fl (-52490001018404) 1000000000000000;
     fl 206659098273522 1000000000000000; fl 572496335158169 1000000000000000; fl 317837248815438 1000000000000000;
     fl (-21216624031211) 1000000000000000; fl (-19387668756117) 1000000000000000; fl (-1521339050858) 1000000000000000;
     fl (-835181622534) 1000000000000000].
  (* T_MATRIX_SMALL[2], helpers.c 38-45 *)
  Definition T_matrix_b : list S :=
    [fl 339475473216284 1000000000000000; fl 635401374177222 1000000000000000; fl 771520797089589 1000000000000000;
     fl 113222640692379 1000000000000000; fl (-55251113343776) 1000000000000000; fl (-48222578468680) 1000000000000000;
     fl (-12966666339586) 1000000000000000; fl (-1523814504223) 1000000000000000; fl (-94718948810) 1000000000000000;
     fl (-51604594741) 1000000000000000].
  (* spectral_r_small, helpers.c 47-59 *)
  Definition spectral_r_small : list S :=
    [fl 9281362787953 1000000000000000; fl 9732627042016 1000000000000000; fl 11254252737167 1000000000000000;
     fl 15105578649573 1000000000000000; fl 24797924177217 1000000000000000; fl 83622585502406 1000000000000000;
     fl 977865045723212 1000000000000000; fl 1000000000000000 1000000000000000; fl 999961046144372 1000000000000000;
     fl 999999992756822 1000000000000000].
  (* spectral_g_small, helpers.c 47-59 *)
  Definition spectral_g_small : list S :=
    [fl 2854127435775 1000000000000000; fl 3917589679914 1000000000000000; fl 12132151699187 1000000000000000;
     fl 748259205918013 1000000000000000; fl 1000000000000000 1000000000000000; fl 865695937531795 1000000000000000;
     fl 37477469241101 1000000000000000; fl 22816789725717 1000000000000000; fl 21747419446456 1000000000000000;
     fl 21384940572308 1000000000000000].
  (* spectral_b_small, helpers.c 47-59 *)
  Definition spectral_b_small : list S :=
    [fl 537052150373386 1000000000000000; fl 546646402401469 1000000000000000; fl 575501819073983 1000000000000000;
     fl 258778829633924 1000000000000000; fl 41709923751716 1000000000000000; fl 12662638828324 1000000000000000;
     fl 7485593127390 1000000000000000; fl 6766900622462 1000000000000000; fl 6699764779016 1000000000000000;
     fl 6676219883241 1000000000000000].

  (** a colour with alpha *)
  Definition rgba : Type := (S * S * S * S)%type.

  (* WGM_EPSILON, helpers.h 15; the float [offset] of both functions *)
  Definition WGM_EPSILON : D := dec 1 1000.
  Definition wgm_offset : S := N (nsub (d 1) WGM_EPSILON).

  (* rgb_to_spectral, helpers.c 519-542 (every caller passes an array of zeros) *)
  Definition rgb_to_spectral (r g b : S) : list S :=
    let lift c := N (nadd (W (nmul c wgm_offset)) WGM_EPSILON) in
    let r := lift r in
    let g := lift g in
    let b := lift b in
    map (fun p => let '(pr, (pg, pb)) := p in
                  nadd (s 0) (nadd (nadd (nmul pr r) (nmul pg g)) (nmul pb b)))
        (combine spectral_r_small (combine spectral_g_small spectral_b_small)).

  (* the sums of spectral_to_rgb, helpers.c 548-552 *)
  Definition dot (m sp : list S) : S :=
    fold_left (fun acc p => nadd acc (nmul (fst p) (snd p))) (combine m sp) (s 0).

  (* CLAMP(x, 0.0f, 1.0f) of a double, stored in a float *)
  Definition clamp01d (x : D) : S := N (if nlt (d 1) x then d 1 else if nlt x (d 0) then d 0 else x).

  (* spectral_to_rgb, helpers.c 545-557 *)
  Definition spectral_to_rgb (sp : list S) : S * S * S :=
    let out m := clamp01d (ndiv (nsub (W (dot m sp)) WGM_EPSILON) (W wgm_offset)) in
    (out T_matrix_r, out T_matrix_g, out T_matrix_b).

  (* mix_colors, helpers.c 562-606; [last] is the static array [result] left by
     the previous call anywhere in the process, the new one is returned *)
  Definition mix_colors (last a b : rgba) (fac paint_mode : S) : rgba :=
    let '(lr, lg, lb, _) := last in
    let '(ar, ag, ab, aa) := a in
    let '(br, bg, bb, ba) := b in
    let opa_a := fac in
    let opa_b := N (nsub (d 1) (W opa_a)) in
    let alpha := clamp01 M (nadd (nmul opa_a aa) (nmul opa_b ba)) in
    let sfac_a := if neqb aa (s 0) then s 0 else ndiv (nmul opa_a aa) (nadd aa (nmul ba opa_b)) in
    let sfac_b := nsub (s 1) sfac_a in
    let '(r, g, b) :=
      if nlt (d 0) (W paint_mode) then
        let spec_a := rgb_to_spectral ar ag ab in
        let spec_b := rgb_to_spectral br bg bb in
        spectral_to_rgb (map (fun p => nmul (powf (fst p) sfac_a) (powf (snd p) sfac_b)) (combine spec_a spec_b))
      else (lr, lg, lb) in
    if nlt (W paint_mode) (d 1) then
      let mixc l x y := nadd (nmul l paint_mode) (nmul (nsub (s 1) paint_mode) (nadd (nmul x opa_a) (nmul y opa_b))) in
      (mixc r ar br, mixc g ag bg, mixc b ab bb, alpha)
    else (r, g, b, alpha).
End Spectral.
