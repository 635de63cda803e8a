(** Loading a brush file: mypaint-brush.c 1549-1681.

    The text is parsed by the json-c library, which is not modelled: the model
    starts from the tree that json_tokener_parse returns.  A null value of JSON is
    the NULL pointer in json-c.  The functions of json-c that read the tree are
    modelled as documented by that library (version 0.10 and later), except for
    the conversion of strings and doubles to other numbers, which are parameters.
    The asserts inside json-c are taken to be enabled ([Abort]). *)
From Verif Require Import Base F32 Arith Color Mapping Settings Spectral Brush.
From Coq Require Import String.
Local Open Scope Z_scope.

Inductive json (D : Type) : Type :=
| JNull | JBool (b : bool) | JInt (z : Z) | JDouble (v : D) | JString (s : string)
| JArray (l : list (json D)) | JObject (l : list (string * json D)).
Arguments JNull {D}. Arguments JBool {D}. Arguments JInt {D}. Arguments JDouble {D}.
Arguments JString {D}. Arguments JArray {D}. Arguments JObject {D}.

Record jsonc (M : mixed) := mkJsonc {
  jc_strtod : string -> dbl M;          (* json_object_get_double of a string *)
  jc_dtoi : dbl M -> outcome Z;         (* json_object_get_int of a double *)
  jc_stoi : string -> Z                 (* json_object_get_int of a string *)
}.
Arguments jc_strtod {M}. Arguments jc_dtoi {M}. Arguments jc_stoi {M}.

Section Json.
  Context {M : mixed} (L : mathlib M) (J : jsonc M) {E : env M}.
  Notation S := (car (sng M)).
  Notation D := (car (dbl M)).
  Notation json := (json (car (dbl M))).
  Notation brush := (brush E).

  Fixpoint assoc (l : list (string * json)) (key : string) : option json :=
    match l with
    | [] => None
    | (k, v) :: l => if String.eqb k key then Some v else assoc l key
    end.
  (* obj_get, 1549-1562: the key is there and its value is not null *)
  Definition obj_get (o : json) (key : string) : option json :=
    match o with
    | JObject l => match assoc l key with Some JNull => None | r => r end
    | _ => None
    end.
  (* json_object_get_double *)
  Definition get_double (o : json) : D :=
    match o with
    | JDouble v => v
    | JInt z => nofZ z
    | JBool b => nofZ (if b then 1 else 0)
    | JString s => jc_strtod J s
    | _ => nofZ 0
    end.
  (* json_object_get_int: clamped to 32 bits *)
  Definition get_int (o : json) : outcome Z :=
    match o with
    | JInt z => Ok (Z.max INT_MIN (Z.min INT_MAX z))
    | JDouble v => jc_dtoi J v
    | JBool b => Ok (if b then 1 else 0)
    | JString s => Ok (jc_stoi J s)
    | _ => Ok 0
    end.
  (* json_object_array_get_idx: NULL beyond the end, an assert on the type *)
  Definition get_idx (o : json) (i : nat) : outcome json :=
    match o with JArray l => Ok (nth i l JNull) | _ => Abort end.

  (* the loop over the points of a curve, 1611-1620.  (The length of the array is
     stored in an int; arrays of 2^31 points and more are not modelled.) *)
  Fixpoint load_points (b : brush) (id input i : Z) (pts : list json) : outcome brush :=
    match pts with
    | [] => Ok b
    | p :: pts =>
        let* x := get_idx p 0 in
        let* y := get_idx p 1 in
        let* b := set_mapping_point b id input i (nar (get_double x)) (nar (get_double y)) in
        load_points b id input (i + 1) pts
    end.

  (* (unsigned) id < count: the name was found *)
  Definition found (id : Z) (count : nat) : bool := (0 <=? id) && (id <? Z.of_nat count).

  (* the loop over the inputs of a setting, 1594-1621 *)
  Fixpoint load_inputs (b : brush) (id : Z) (l : list (string * json)) : outcome (bool * brush) :=
    match l with
    | [] => Ok (true, b)
    | (name, JArray pts) :: l =>
        let input := input_from_cname name in
        if negb (found input INPUTS_COUNT) then Ok (false, b)
        else
          let* b := set_mapping_n b id input (Z.of_nat (List.length pts)) in
          let* b := load_points b id input 0 pts in
          load_inputs b id l
    | _ :: _ => Ok (false, b)
    end.

  (* update_brush_setting_from_json_object, 1564-1625.  json_object_object_foreach
     on something that is not an object reads through a NULL pointer. *)
  Definition load_setting (b : brush) (name : string) (o : json) : outcome (bool * brush) :=
    let id := setting_from_cname name in
    if negb (found id SETTINGS_COUNT) then Ok (false, b)
    else
      match o with
      | JObject _ =>
          match obj_get o "base_value" with
          | None => Ok (false, b)
          | Some v =>
              let* b := set_base_value L b id (nar (get_double v)) in
              match obj_get o "inputs" with
              | None => Ok (false, b)
              | Some (JObject l) => load_inputs b id l
              | Some _ => UB
              end
          end
      | _ => Ok (false, b)
      end.

  (* update_brush_from_json_object, 1627-1656 *)
  Definition load_settings (l : list (string * json)) (b : brush) : outcome (bool * brush) :=
    ofold (fun r kv => let '(any, b) := r in
                       let* (ok, b) := load_setting b (fst kv) (snd kv) in Ok (any || ok, b)) l (false, b).
  Definition load (b : brush) (o : json) : outcome (bool * brush) :=
    match obj_get o "version" with
    | None => Ok (false, b)
    | Some v =>
        let* version := get_int v in
        if negb (version =? 3) then Ok (false, b)
        else
          match obj_get o "settings" with
          | None => Ok (false, b)
          | Some (JObject l) => load_settings l b
          | Some _ => UB
          end
    end.

  (* mypaint_brush_from_string, 1658-1681; [None] for a NULL argument, a text
     that does not parse, or the text "null".  The tree is kept in the brush
     (brush_json) but only read by the functions above, so it is left out. *)
  Definition from_string (b : brush) (doc : option json) : outcome (bool * brush) :=
    match doc with
    | None => Ok (false, b)
    | Some o => load b o
    end.
End Json.
