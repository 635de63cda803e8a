(** Reference counts of brushes and surfaces (mypaint-brush.c 255-272,
    mypaint-surface.c 66-97).  Both are the same code; what destroying means
    (brush_free, or the destroy function of the surface) is left open: a call of
    it is recorded and afterwards the memory is gone. *)
From Verif Require Import Base.

(* the object in memory: its counter while it exists, nothing once destroyed;
   [ro_destroyed] counts the calls of the destructor *)
Record robj := mkRobj { ro_count : option Z; ro_destroyed : nat }.

(* mypaint_brush_new_with_buckets 213, mypaint_surface_init 67-71 *)
Definition ref_new : robj := mkRobj (Some 1) 0.
(* mypaint_brush_ref 268-272, mypaint_surface_ref 78-82 *)
Definition ref_inc (o : robj) : outcome robj :=
  match ro_count o with
  | None => UB
  | Some n => let* n := int_val (n + 1) in Ok (mkRobj (Some n) (ro_destroyed o))
  end.
(* mypaint_brush_unref 255-262, mypaint_surface_unref 89-97 *)
Definition ref_dec (o : robj) : outcome robj :=
  match ro_count o with
  | None => UB
  | Some n =>
      let* n := int_val (n - 1) in
      if n =? 0 then Ok (mkRobj None (S (ro_destroyed o))) else Ok (mkRobj (Some n) (ro_destroyed o))
  end.

Inductive ref_call := Ref | Unref.
Definition ref_step (o : robj) (c : ref_call) : outcome robj := match c with Ref => ref_inc o | Unref => ref_dec o end.
Definition ref_run (cs : list ref_call) (o : robj) : outcome robj := ofold ref_step cs o.
