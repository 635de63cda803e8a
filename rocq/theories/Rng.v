(** Model of rng-double.c (Knuth's lagged Fibonacci generator on doubles).

    The functions are written once, over a type [A] of numbers with the
    operation [ms] for the macro [mod_sum]; [f64] with bit-exact double
    arithmetic is the model of the code ([rng_*] definitions at the end).  The
    other instances (integers, booleans, the one-point type) are used in proofs.
    Array cells are [option]s: [None] is uninitialised memory, reading it or
    leaving the array is [UB]. *)
From Verif Require Import Base F32.

(* rng-double.c 42-45 *)
Definition QUALITY : Z := 19.
Definition TT : Z := 7.
Definition KK : Z := 10.
Definition LL : Z := 7.

Section Arr.
  Context {A : Type}.
  Definition rd (l : list (option A)) (i : Z) : outcome A :=
    if i <? 0 then UB
    else match nth_error l (Z.to_nat i) with Some (Some a) => Ok a | _ => UB end.
  Definition wr (l : list (option A)) (i : Z) (a : A) : outcome (list (option A)) :=
    if (0 <=? i) && (i <? Z.of_nat (length l)) then Ok (upd l (Z.to_nat i) (Some a)) else UB.
End Arr.

(** [for (j = hi; j >= lo; j--)] *)
Definition zdown (hi lo : Z) : list Z := rev (zrange lo (Z.to_nat (hi - lo + 1))).

Section Generic.
  Context {A : Type} (ms : A -> A -> outcome A).
  Notation arr := (list (option A)).

  (* rng_double_get_array, rng-double.c 61-68; [aa] is the caller's array *)
  Definition get_array (ran_u aa : arr) (n : Z) : outcome (arr * arr) :=
    let* aa := ofold (fun aa j => let* v := rd ran_u j in wr aa j v) (zrange 0 (Z.to_nat KK)) aa in
    let* aa := ofold (fun aa j =>
                        let* a := rd aa (j - KK) in let* b := rd aa (j - LL) in
                        let* v := ms a b in wr aa j v)
                     (zrange KK (Z.to_nat (n - KK))) aa in
    let j0 := Z.max KK n in
    let* ran_u := ofold (fun u i =>
                        let* a := rd aa (j0 + i - KK) in let* b := rd aa (j0 + i - LL) in
                        let* v := ms a b in wr u i v)
                     (zrange 0 (Z.to_nat LL)) ran_u in
    let* ran_u := ofold (fun u i =>
                        let* a := rd aa (j0 + i - KK) in let* b := rd u (i - LL) in
                        let* v := ms a b in wr u i v)
                     (zrange LL (Z.to_nat (KK - LL))) ran_u in
    Ok (ran_u, aa).

  Context (zero : A).

  (* 103-104: "square" *)
  Definition seed_square (u : arr) : outcome arr :=
    ofold (fun u j => let* v := rd u j in let* u := wr u (j + j) v in wr u (j + j - 1) zero)
          (zdown (KK - 1) 1) u.

  (* one round of the loop at 102-115; [odd] is is_odd(s) *)
  Definition seed_round (odd : bool) (u : arr) : outcome arr :=
    let* u := seed_square u in
    let* u := ofold (fun u j =>
                let* a := rd u (j - (KK - LL)) in let* b := rd u j in
                let* v := ms a b in let* u := wr u (j - (KK - LL)) v in
                let* a := rd u (j - KK) in let* b := rd u j in
                let* v := ms a b in wr u (j - KK) v)
                    (zdown (KK + KK - 2) KK) u in
    if odd then
      let* u := ofold (fun u j => let* v := rd u (j - 1) in wr u j v) (zdown KK 1) u in
      let* v := rd u KK in
      let* u := wr u 0 v in
      let* a := rd u LL in let* b := rd u KK in
      let* v := ms a b in wr u LL v
    else Ok u.

  (* the loop at 102-116; it runs until t reaches 0, [fuel] only bounds the
     number of rounds and [None] means it ran out *)
  Fixpoint seed_loop (fuel : nat) (s t : Z) (u : arr) : option (outcome arr) :=
    if t =? 0 then Some (Ok u)
    else match fuel with
         | O => None
         | S fuel =>
             match seed_round (Z.odd s) u with
             | Ok u => if negb (s =? 0) then seed_loop fuel (s / 2) t u else seed_loop fuel s (t - 1) u
             | Abort => Some Abort
             | UB => Some UB
             end
         end.

  (* 117-118: copy to the state *)
  Definition seed_copy (ran_u u : arr) : outcome arr :=
    let* ran_u := ofold (fun r j => let* v := rd u j in wr r (j + KK - LL) v) (zrange 0 (Z.to_nat LL)) ran_u in
    ofold (fun r j => let* v := rd u j in wr r (j - LL) v) (zrange LL (Z.to_nat (KK - LL))) ran_u.

  (* 117-119: copy to the state and warm up *)
  Definition seed_finish (ran_u u : arr) : outcome arr :=
    let* ran_u := seed_copy ran_u u in
    let* (ran_u, _) := ofold (fun st _ => get_array (fst st) (snd st) (KK + KK - 1)) (zrange 0 10) (ran_u, u) in
    Ok ran_u.
End Generic.

(** ** The double instance *)

(** (int) of a double *)
(* mod_sum, rng-double.c 49 *)
Definition mod_sum (x y : f64) : outcome f64 :=
  let* i := d_to_int (dadd x y) in
  Ok (dsub (dadd x y) (d_of_Z i)).

(* 93: ulp=(1.0/(1L<<30))/(1L<<22) *)
Definition d_ulp : f64 := ddiv (ddiv (d_of_Z 1) (d_of_Z (2 ^ 30))) (d_of_Z (2 ^ 22)).
Definition d0 : f64 := d_of_Z 0.

(* 98: one step of the cyclic shift *)
Definition ss_step (ss : f64) : f64 :=
  let ss := dadd ss ss in
  if dle (d_of_Z 1) ss then dsub ss (dsub (d_of_Z 1) (dmul (d_of_Z 2) d_ulp)) else ss.

(** [seed & 0x3fffffff]: for a two's complement [long] this is the residue
    modulo 2^30, also for negative seeds *)
Definition seed_bits (seed : Z) : Z := Z.land seed 1073741823.

(* 94-100; u[] has KK+KK-1 = 19 cells, uninitialised *)
Definition seed_start (seed : Z) : outcome (list (option f64)) :=
  let ss := dmul (dmul (d_of_Z 2) d_ulp) (d_of_Z (seed_bits seed + 2)) in
  let* (u, _) := ofold (fun (st : list (option f64) * f64) j =>
                     let* u := wr (fst st) j (snd st) in Ok (u, ss_step (snd st)))
                  (zrange 0 (Z.to_nat KK)) (repeat None 19, ss) in
  let* v := rd u 1 in
  wr u 1 (dadd v d_ulp).

(** the pointer ranf_arr_ptr: to one of the two constants -1.0, or into the
    buffer *)
Inductive rng_ptr := AtConst | AtBuf (k : Z).
Record rng := mkRng { ran_u : list (option f64); rng_buf : list (option f64); rng_pos : rng_ptr }.

(* rng_double_set_seed, 89-120; [fuel] as in [seed_loop] *)
Definition rng_set_seed (fuel : nat) (g : rng) (seed : Z) : option (outcome rng) :=
  match seed_start seed with
  | Ok u =>
      match seed_loop mod_sum d0 fuel (seed_bits seed) (TT - 1) u with
      | Some (Ok u) =>
          Some (let* r := seed_finish mod_sum (ran_u g) u in Ok (mkRng r (rng_buf g) AtConst))
      | Some Abort => Some Abort
      | Some UB => Some UB
      | None => None
      end
  | Abort => Some Abort
  | UB => Some UB
  end.

(* rng_double_new, 71-81; a successful malloc gives uninitialised memory *)
Definition rng_new (fuel : nat) (seed : Z) : option (outcome rng) :=
  rng_set_seed fuel (mkRng (repeat None 10) (repeat None 19) AtConst) seed.

(* rng_double_cycle, 123-130 *)
Definition rng_cycle (g : rng) : outcome (f64 * rng) :=
  let* (r, b) := get_array mod_sum (ran_u g) (rng_buf g) QUALITY in
  let* b := wr b KK (d_of_Z (-1)) in
  let* v := rd b 0 in
  Ok (v, mkRng r b (AtBuf 1)).

(* rng_double_next, 132-136 *)
Definition rng_next (g : rng) : outcome (f64 * rng) :=
  match rng_pos g with
  | AtConst => rng_cycle g
  | AtBuf k =>
      let* v := rd (rng_buf g) k in
      if dle d0 v then Ok (v, mkRng (ran_u g) (rng_buf g) (AtBuf (k + 1)))
      else rng_cycle g
  end.
