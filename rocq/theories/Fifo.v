(** Model of fifo.c on an explicit heap, and of the memory management of
    operationqueue.c (which objects are allocated and released when). *)
From Verif Require Import Base.

(** Addresses are numbers; [malloc] hands out fresh addresses.
    Simplification: [malloc] does not fail and does not reuse addresses (so a
    dangling pointer is always detected as such). *)
Definition ptr : Type := nat.

Inductive obj : Type :=
| OItem (next : option ptr) (payload : ptr)                 (* fifo.c 22-26 *)
| OFifo (first last : option ptr) (item_count : Z)           (* fifo.c 28-33 *)
| OOp.                                  (* an OperationDataDrawDab, operationqueue.h *)

Record heap : Type := mkHeap { mem : ptr -> option obj; brk : ptr }.

Definition set_mem (m : ptr -> option obj) (p : ptr) (o : option obj) : ptr -> option obj :=
  fun p' => if Nat.eqb p p' then o else m p'.

Definition malloc (h : heap) (o : obj) : ptr * heap :=
  (brk h, mkHeap (set_mem (mem h) (brk h) (Some o)) (S (brk h))).

(** [free] of something that is not allocated is undefined. *)
Definition free (h : heap) (p : ptr) : outcome heap :=
  match mem h p with
  | Some _ => Ok (mkHeap (set_mem (mem h) p None) (brk h))
  | None => UB
  end.

Definition store (h : heap) (p : ptr) (o : obj) : outcome heap :=
  match mem h p with
  | Some _ => Ok (mkHeap (set_mem (mem h) p (Some o)) (brk h))
  | None => UB
  end.

Definition load_fifo (h : heap) (q : ptr) : outcome (option ptr * option ptr * Z) :=
  match mem h q with Some (OFifo f l c) => Ok (f, l, c) | _ => UB end.

Definition load_item (h : heap) (p : ptr) : outcome (option ptr * ptr) :=
  match mem h p with Some (OItem n d) => Ok (n, d) | _ => UB end.

(** fifo.c 41-48 [fifo_new]. *)
Definition fifo_new (h : heap) : ptr * heap := malloc h (OFifo None None 0).

(** fifo.c 72-82 [fifo_push] ([item_count] is indeed not incremented). *)
Definition fifo_push (h : heap) (q : ptr) (data : ptr) : outcome heap :=
  let '(item, h) := malloc h (OItem None data) in
  let* (f, l, c) := load_fifo h q in
  match l with
  | None => store h q (OFifo (Some item) (Some item) c)
  | Some lp =>
      let* (_, d) := load_item h lp in
      let* h := store h lp (OItem (Some item) d) in
      store h q (OFifo f (Some item) c)
  end.

(** fifo.c 89-106 [fifo_pop]. *)
Definition fifo_pop (h : heap) (q : ptr) : outcome (option ptr * heap) :=
  let* (f, l, c) := load_fifo h q in
  match f with
  | None => Ok (None, h)
  | Some item =>
      let* (nx, d) := load_item h item in
      let l' := match nx with None => None | Some _ => l end in
      let* h := free h item in
      let* h := store h q (OFifo nx l' (c - 1)) in
      Ok (Some d, h)
  end.

(** fifo.c 108-114 [fifo_peek_first], [fifo_peek_last]. *)
Definition fifo_peek_first (h : heap) (q : ptr) : outcome (option ptr) :=
  let* (f, l, c) := load_fifo h q in
  match f with
  | None => Ok None
  | Some p => let* (_, d) := load_item h p in Ok (Some d)
  end.

Definition fifo_peek_last (h : heap) (q : ptr) : outcome (option ptr) :=
  let* (f, l, c) := load_fifo h q in
  match l with
  | None => Ok None
  | Some p => let* (_, d) := load_item h p in Ok (Some d)
  end.

(** fifo.c 55-65 [fifo_free] with [user_free = operation_delete_func]
    (operationqueue.c 41-46), which calls [free] on its argument.  Note that the
    argument is the list *item*, not the payload.  The C loop is unbounded; the
    fuel is the number of addresses handed out so far, and running out of it is
    reported as UB (proved impossible for a well-formed fifo). *)
Fixpoint fifo_free_loop (fuel : nat) (h : heap) (q : ptr) : outcome heap :=
  let* (f, l, c) := load_fifo h q in
  match f with
  | None => Ok h
  | Some item =>
      match fuel with
      | O => UB
      | S k =>
          let* (nx, _) := load_item h item in
          let* h := store h q (OFifo nx l c) in
          let* h := free h item in
          fifo_free_loop k h q
      end
  end.

Definition fifo_free (h : heap) (q : ptr) : outcome heap :=
  let* h := fifo_free_loop (brk h) h q in
  free h q.

(** ** Memory side of operationqueue.c: the slots of the tile map are [Fifo*]. *)

(** operationqueue.c 186-205: the part of [operation_queue_add] after the tile
    was found; [k] is the slot number.  The payload is allocated by the caller
    (draw_dab_internal, mypaint-tiled-surface.c 675-677). *)
Definition mem_add (h : heap) (slots : list (option ptr)) (k : nat)
  : outcome (ptr * heap * list (option ptr)) :=
  let '(op, h) := malloc h OOp in
  let '(q, h, slots) :=
    match nth k slots None with
    | None => let '(q, h) := fifo_new h in (q, h, upd slots k (Some q))
    | Some q => (q, h, slots)
    end in
  let* _ := fifo_peek_first h q in
  let* h := fifo_push h q op in
  Ok (op, h, slots).

(** operationqueue.c 221-234, the part of [operation_queue_pop] after the tile
    was found. *)
Definition mem_pop (h : heap) (slots : list (option ptr)) (k : nat)
  : outcome (option ptr * heap * list (option ptr)) :=
  match nth k slots None with
  | None => Ok (None, h, slots)
  | Some q =>
      let* (o, h) := fifo_pop h q in
      match o with
      | Some d => Ok (Some d, h, slots)
      | None => let* h := fifo_free h q in Ok (None, h, upd slots k None)
      end
  end.

(** mypaint-tiled-surface.c 585-591: [process_tile] pops an operation, applies
    it and frees it. *)
Definition mem_process_one (h : heap) (slots : list (option ptr)) (k : nat)
  : outcome (option ptr * heap * list (option ptr)) :=
  let* (o, h, slots) := mem_pop h slots k in
  match o with
  | None => Ok (None, h, slots)
  | Some d => let* h := free h d in Ok (Some d, h, slots)
  end.

(** operationqueue.c 48-53 [free_fifo] on every slot (tilemap.c 41-51
    [tile_map_free] with [free_items]), as done by [operation_queue_free]. *)
Definition mem_free_all (h : heap) (slots : list (option ptr)) : outcome heap :=
  ofold (fun h s => match s with None => Ok h | Some q => fifo_free h q end) slots h.

Inductive mcall : Type := MAdd (k : nat) | MProcess (k : nat).

(** One call; the result is the dab object queued, or the one processed. *)
Definition mstep (st : heap * list (option ptr)) (c : mcall)
  : outcome (heap * list (option ptr) * option ptr) :=
  let '(h, slots) := st in
  match c with
  | MAdd k => let* (op, h, slots) := mem_add h slots k in Ok (h, slots, Some op)
  | MProcess k =>
      let* (o, h, slots) := mem_process_one h slots k in
      Ok (h, slots, o)
  end.

(** Run a history and list the results. *)
Fixpoint mrun (st : heap * list (option ptr)) (cs : list mcall)
  : outcome (heap * list (option ptr) * list (option ptr)) :=
  match cs with
  | [] => Ok (st, [])
  | c :: cs' =>
      let* (st1, r) := mstep st c in
      let* (st2, rs) := mrun st1 cs' in
      Ok (st2, r :: rs)
  end.
