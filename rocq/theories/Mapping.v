(** mypaint-mapping.c: the curves from inputs to setting values. *)
From Verif Require Import Base F32 Arith.

Section Mapping.
  Context (K : arith).

  (* ControlPoints, mypaint-mapping.c 35-40: two arrays of 64 numbers of which
     the first [cp_n] count; memory from malloc is uninitialised ([None]) *)
  Record control := mkControl { cp_x : list (option K); cp_y : list (option K); cp_n : Z }.
  (* struct MyPaintMapping, 42-49; [inputs] is the length of the list *)
  Record mapping := mkMapping { mp_base : K; mp_points : list control; mp_used : Z }.

  (* array read: outside the array or uninitialised is undefined *)
  Definition cell (l : list (option K)) (i : Z) : outcome K :=
    if i <? 0 then UB
    else match nth_error l (Z.to_nat i) with Some (Some a) => Ok a | _ => UB end.

  (* mypaint_mapping_new, 52-67 (allocation failure is not handled by the code
     and not modelled) *)
  Definition mapping_new (inputs : nat) : mapping :=
    mkMapping (nofZ 0) (repeat (mkControl (repeat None 64) (repeat None 64) 0) inputs) 0.

  (* mypaint_mapping_set_base_value, 81-84 *)
  Definition mapping_set_base (m : mapping) (v : K) : mapping := mkMapping v (mp_points m) (mp_used m).

  (* the assert on [input] and the pointer arithmetic, 88, 91 *)
  Definition control_of (m : mapping) (input : Z) : outcome control :=
    if (0 <=? input) && (input <? Z.of_nat (length (mp_points m))) then
      match nth_error (mp_points m) (Z.to_nat input) with Some p => Ok p | None => UB end
    else Abort.

  (* mypaint_mapping_set_n, 86-99 *)
  Definition mapping_set_n (m : mapping) (input n : Z) : outcome mapping :=
    let* p := control_of m input in
    if negb ((0 <=? n) && (n <=? 64)) then Abort
    else if n =? 1 then Abort
    else
      let used := if negb (n =? 0) && (cp_n p =? 0) then mp_used m + 1 else mp_used m in
      let used := if (n =? 0) && negb (cp_n p =? 0) then used - 1 else used in
      if negb (0 <=? used) then Abort
      else if negb (used <=? Z.of_nat (length (mp_points m))) then Abort
      else Ok (mkMapping (mp_base m)
                 (upd (mp_points m) (Z.to_nat input) (mkControl (cp_x p) (cp_y p) n)) used).

  (* mypaint_mapping_get_n, 102-107 *)
  Definition mapping_get_n (m : mapping) (input : Z) : outcome Z :=
    let* p := control_of m input in Ok (cp_n p).

  (* mypaint_mapping_set_point, 109-122 *)
  Definition mapping_set_point (m : mapping) (input index : Z) (x y : K) : outcome mapping :=
    let* p := control_of m input in
    if negb ((0 <=? index) && (index <? 64)) then Abort
    else if negb (index <? cp_n p) then Abort
    else
      let* _ := (if 0 <? index then
                   let* x' := cell (cp_x p) (index - 1) in if nle x' x then Ok tt else Abort
                 else Ok tt) in
      Ok (mkMapping (mp_base m)
            (upd (mp_points m) (Z.to_nat input)
               (mkControl (upd (cp_x p) (Z.to_nat index) (Some x)) (upd (cp_y p) (Z.to_nat index) (Some y)) (cp_n p)))
            (mp_used m)).

  (* mypaint_mapping_get_point, 124-133 *)
  Definition mapping_get_point (m : mapping) (input index : Z) : outcome (K * K) :=
    let* p := control_of m input in
    if negb ((0 <=? index) && (index <? 64)) then Abort
    else if negb (index <? cp_n p) then Abort
    else let* x := cell (cp_x p) index in let* y := cell (cp_y p) index in Ok (x, y).

  (* mypaint_mapping_is_constant, 135-138 *)
  Definition mapping_is_constant (m : mapping) : bool := mp_used m =? 0.
  (* mypaint_mapping_get_inputs_used_n, 140-144 *)
  Definition mapping_inputs_used (m : mapping) : Z := mp_used m.

  (* the segment search of mypaint_mapping_calculate, 170-175; [fuel] counts the
     control points that are left, the loop stops by itself at [cp_n] *)
  Fixpoint segment (p : control) (fuel : nat) (i : Z) (x x0 y0 x1 y1 : K) : outcome (K * K * K * K) :=
    match fuel with
    | O => Ok (x0, y0, x1, y1)
    | S fuel =>
        if (i <? cp_n p) && nlt x1 x then
          let* x2 := cell (cp_x p) i in
          let* y2 := cell (cp_y p) i in
          segment p fuel (i + 1) x x1 y1 x2 y2
        else Ok (x0, y0, x1, y1)
    end.

  (* the body of the loop over inputs, 158-183 *)
  Definition curve_value (p : control) (x : K) : outcome K :=
    let* x0 := cell (cp_x p) 0 in
    let* y0 := cell (cp_y p) 0 in
    let* x1 := cell (cp_x p) 1 in
    let* y1 := cell (cp_y p) 1 in
    let* (x0, y0, x1, y1) := segment p (Z.to_nat (cp_n p)) 2 x x0 y0 x1 y1 in
    if neqb x0 x1 || neqb y0 y1 then Ok y0
    else Ok (ndiv (nadd (nmul y1 (nsub x x0)) (nmul y0 (nsub x1 x))) (nsub x1 x0)).

  (* the loop over inputs of mypaint_mapping_calculate, 155-186; [data] is the
     caller's array of input values *)
  Fixpoint sum_inputs (ps : list control) (data : list K) (result : K) : outcome K :=
    match ps with
    | [] => Ok result
    | p :: ps =>
        match data with
        | [] => if cp_n p =? 0 then sum_inputs ps [] result else UB
        | x :: data =>
            if cp_n p =? 0 then sum_inputs ps data result
            else let* y := curve_value p x in sum_inputs ps data (nadd result y)
        end
    end.

  (* mypaint_mapping_calculate, 146-188 *)
  Definition mapping_calculate (m : mapping) (data : list K) : outcome K :=
    if mp_used m =? 0 then Ok (mp_base m) else sum_inputs (mp_points m) data (mp_base m).

  (* mypaint_mapping_calculate_single_input, 191-195 *)
  Definition mapping_calculate_single (m : mapping) (x : K) : outcome K :=
    if Z.of_nat (length (mp_points m)) =? 1 then mapping_calculate m [x] else Abort.
End Mapping.

Arguments mkControl {K}. Arguments cp_x {K}. Arguments cp_y {K}. Arguments cp_n {K}.
Arguments mkMapping {K}. Arguments mp_base {K}. Arguments mp_points {K}. Arguments mp_used {K}.
Arguments cell {K}. Arguments mapping_set_base {K}. Arguments control_of {K}.
Arguments mapping_set_n {K}. Arguments mapping_get_n {K}. Arguments mapping_set_point {K}.
Arguments mapping_get_point {K}. Arguments mapping_is_constant {K}. Arguments mapping_inputs_used {K}.
Arguments segment {K}. Arguments curve_value {K}. Arguments sum_inputs {K}.
Arguments mapping_calculate {K}. Arguments mapping_calculate_single {K}.
