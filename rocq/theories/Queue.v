(** Model of tilemap.c and operationqueue.c (the fifo of one tile is a list
    here; the linked list itself is modelled and proved to implement that list
    in Fifo.v). *)
From Verif Require Import Base.

(** tilemap.h 34-37: [TileIndex {int x, y}]. *)
Definition tile : Type := (Z * Z)%type.

(** operationqueue.c 117-121 [tile_equal]. *)
Definition tile_equal (a b : tile) : bool :=
  (fst a =? fst b) && (snd a =? snd b).

Section Queue.
  (** Payload of the queue: an [OperationDataDrawDab*] that is never NULL. *)
  Variable Op : Type.

  (** A slot of the tile map: [None] is a NULL [Fifo*], [Some l] a fifo holding
      the payloads [l], oldest first. *)
  Definition slot : Type := option (list Op).

  (** operationqueue.c 34-39 [struct OperationQueue] and tilemap.h [TileMap].
      [q_dirty] is the valid prefix [dirty_tiles[0 .. dirty_tiles_n-1]] of the
      array, whose capacity is [4*size*size] (operationqueue.c 69-70). *)
  Record queue : Type := mkQ {
    q_size : Z;
    q_map : list slot;
    q_dirty : list tile
  }.

  (** tilemap.c 31, 44, 61; operationqueue.c 69. *)
  Definition map_size (n : Z) : Z := 2 * n * 2 * n.

  (** tilemap.c 24-38 [tile_map_new].  [2*size*2*size] is an [int]
      computation: overflow is undefined.  Simplification: [malloc] is assumed
      to succeed (the C code does not check it). *)
  Definition tile_map_new (n : Z) : outcome (list slot) :=
    let* sz := int_val (map_size n) in
    Ok (repeat None (Z.to_nat sz)).

  (** tilemap.c 57-65 [tile_map_get]: both asserts are kept. *)
  Definition tile_offset (n : Z) (t : tile) : Z :=
    ((n + snd t) * (n * 2)) + n + fst t.

  Definition tile_map_offset (n : Z) (t : tile) : outcome nat :=
    let o := tile_offset n t in
    if negb (o <? map_size n) then Abort
    else if negb (o >=? 0) then Abort
    else Ok (Z.to_nat o).

  Definition tile_map_get (n : Z) (m : list slot) (t : tile) : outcome slot :=
    let* o := tile_map_offset n t in
    match nth_error m o with Some s => Ok s | None => UB end.

  Definition tile_map_set (n : Z) (m : list slot) (t : tile) (s : slot)
    : outcome (list slot) :=
    let* o := tile_map_offset n t in
    if Nat.ltb o (length m) then Ok (upd m o s) else UB.

  (** tilemap.c 83-88 [tile_map_contains]. *)
  Definition tile_map_contains (n : Z) (t : tile) : bool :=
    (fst t >=? - n) && (fst t <? n) && (snd t >=? - n) && (snd t <? n).

  (** tilemap.c 69-80 [tile_map_copy_to]. *)
  Definition all_tiles (n : Z) : list tile :=
    flat_map (fun y => map (fun x => (x, y)) (zrange (- n) (Z.to_nat (2 * n))))
             (zrange (- n) (Z.to_nat (2 * n))).

  Definition tile_map_copy_to (n : Z) (m : list slot) (n' : Z) (m' : list slot)
    : outcome (list slot) :=
    if negb (n' >=? n) then Abort
    else ofold (fun acc t =>
                  let* s := tile_map_get n m t in
                  tile_map_set n' acc t s)
               (all_tiles n) m'.

  (** operationqueue.c 55-89 [operation_queue_resize], branch [new_size != 0]
      with an existing map.  The dirty array is copied element by element into
      an array of capacity [map_size new_size]: writing past it would be UB. *)
  Definition operation_queue_resize (q : queue) (n' : Z) : outcome queue :=
    let* m0 := tile_map_new n' in
    let* m' := tile_map_copy_to (q_size q) (q_map q) n' m0 in
    if Z.of_nat (length (q_dirty q)) <=? map_size n'
    then Ok (mkQ n' m' (q_dirty q))
    else UB.

  (** operationqueue.c 91-107 [operation_queue_new] (without HEAVY_DEBUG).
      The [tile_map == NULL] branch of resize: nothing to copy. *)
  Definition operation_queue_new : queue :=
    mkQ 10 (repeat None 400%nat) [].

  (** operationqueue.c 123-145 [remove_duplicate_tiles]: the two nested loops on
      the array, in place.  [find_dup a j nl x]: inner loop, returns the value
      of [j] on exit. *)
  Fixpoint find_dup (a : list tile) (j : nat) (fuel : nat) (x : tile) : nat :=
    match fuel with
    | O => j
    | S f => if tile_equal (nth j a (0, 0)) x then j else find_dup a (S j) f x
    end.

  Fixpoint dedup_loop (steps : nat) (i : nat) (a : list tile) (nl : nat)
    : list tile * nat :=
    match steps with
    | O => (a, nl)
    | S k =>
        let x := nth i a (0, 0) in
        let j := find_dup a 0 nl x in
        if Nat.eqb j nl
        then dedup_loop k (S i) (upd a nl x) (S nl)
        else dedup_loop k (S i) a nl
    end.

  Definition remove_duplicate_tiles (a : list tile) : list tile :=
    if Nat.ltb (length a) 2 then a
    else let '(a', nl) := dedup_loop (length a - 1) 1 a 1 in firstn nl a'.

  (** operationqueue.c 152-159 [operation_queue_get_dirty_tiles]. *)
  Definition operation_queue_get_dirty_tiles (q : queue) : list tile * queue :=
    let d := remove_duplicate_tiles (q_dirty q) in
    (d, mkQ (q_size q) (q_map q) d).

  (** operationqueue.c 165-170 [operation_queue_clear_dirty_tiles]. *)
  Definition operation_queue_clear_dirty_tiles (q : queue) : queue :=
    mkQ (q_size q) (q_map q) [].

  (** operationqueue.c 178-184: the growth loop of [operation_queue_add].  The
      C loop has no bound; [fuel] is always sufficient because growing beyond
      20480 overflows [int] (see [grow_fuel_enough] in QueueProofs.v), running
      out of it is reported as UB. *)
  Fixpoint grow (fuel : nat) (q : queue) (t : tile) : outcome queue :=
    if tile_map_contains (q_size q) t then Ok q
    else match fuel with
         | O => UB
         | S f => let* q' := operation_queue_resize q (q_size q * 2) in grow f q' t
         end.

  Definition grow_fuel : nat := 64.

  (** fifo.c 108 [fifo_peek_first] on a slot. *)
  Definition slot_empty (s : slot) : bool :=
    match s with Some (_ :: _) => false | _ => true end.

  (** operationqueue.c 176-206 [operation_queue_add].  With assertions enabled;
      the dirty-array write that follows the assert is in bounds exactly when
      the assert holds. *)
  Definition operation_queue_add (q : queue) (t : tile) (op : Op) : outcome queue :=
    let* q := grow grow_fuel q t in
    let n := q_size q in
    let* s := tile_map_get n (q_map q) t in
    let l := match s with None => [] | Some l => l end in
    let* d :=
      if slot_empty s then
        let cap := map_size n in
        let d := if negb (Z.of_nat (length (q_dirty q)) <? cap)
                 then remove_duplicate_tiles (q_dirty q) else q_dirty q in
        if Z.of_nat (length d) <? cap then Ok (d ++ [t]) else Abort
      else Ok (q_dirty q) in
    let* m := tile_map_set n (q_map q) t (Some (l ++ [op])) in
    Ok (mkQ n m d).

  (** operationqueue.c 212-235 [operation_queue_pop]. *)
  Definition operation_queue_pop (q : queue) (t : tile) : outcome (option Op * queue) :=
    let n := q_size q in
    if negb (tile_map_contains n t) then Ok (None, q)
    else
      let* s := tile_map_get n (q_map q) t in
      match s with
      | None => Ok (None, q)
      | Some [] =>
          let* m := tile_map_set n (q_map q) t None in
          Ok (None, mkQ n m (q_dirty q))
      | Some (o :: l) =>
          let* m := tile_map_set n (q_map q) t (Some l) in
          Ok (Some o, mkQ n m (q_dirty q))
      end.

  (** operationqueue.c 237-245 and 247-255 [operation_queue_peek_first/last]. *)
  Definition operation_queue_peek_first (q : queue) (t : tile) : outcome (option Op) :=
    let n := q_size q in
    if negb (tile_map_contains n t) then Ok None
    else let* s := tile_map_get n (q_map q) t in
         Ok (match s with Some (o :: _) => Some o | _ => None end).

  Definition operation_queue_peek_last (q : queue) (t : tile) : outcome (option Op) :=
    let n := q_size q in
    if negb (tile_map_contains n t) then Ok None
    else let* s := tile_map_get n (q_map q) t in
         Ok (match s with
             | Some (o :: l) => Some (last (o :: l) o)
             | _ => None
             end).

  (** One call on the queue and its observable result. *)
  Inductive qcall : Type :=
  | QAdd (t : tile) (op : Op)
  | QPop (t : tile)
  | QPeekFirst (t : tile)
  | QPeekLast (t : tile)
  | QDirty
  | QClear.

  Inductive qresult : Type :=
  | RUnit
  | ROp (o : option Op)
  | RTiles (l : list tile).

  Definition qstep (q : queue) (c : qcall) : outcome (qresult * queue) :=
    match c with
    | QAdd t op => let* q' := operation_queue_add q t op in Ok (RUnit, q')
    | QPop t => let* r := operation_queue_pop q t in Ok (ROp (fst r), snd r)
    | QPeekFirst t => let* o := operation_queue_peek_first q t in Ok (ROp o, q)
    | QPeekLast t => let* o := operation_queue_peek_last q t in Ok (ROp o, q)
    | QDirty => let '(l, q') := operation_queue_get_dirty_tiles q in Ok (RTiles l, q')
    | QClear => Ok (RUnit, operation_queue_clear_dirty_tiles q)
    end.

  Fixpoint qrun (q : queue) (cs : list qcall) : outcome (list qresult * queue) :=
    match cs with
    | [] => Ok ([], q)
    | c :: cs' =>
        let* r := qstep q c in
        let* r' := qrun (snd r) cs' in
        Ok (fst r :: fst r', snd r')
    end.
End Queue.

Arguments mkQ {Op}. Arguments q_size {Op}. Arguments q_map {Op}. Arguments q_dirty {Op}.
Arguments operation_queue_new {Op}. Arguments operation_queue_add {Op}.
Arguments operation_queue_pop {Op}. Arguments operation_queue_resize {Op}.
Arguments operation_queue_peek_first {Op}. Arguments operation_queue_peek_last {Op}.
Arguments operation_queue_get_dirty_tiles {Op}.
Arguments operation_queue_clear_dirty_tiles {Op}.
Arguments tile_map_get {Op}. Arguments tile_map_set {Op}. Arguments tile_map_new {Op}.
Arguments tile_map_copy_to {Op}. Arguments grow {Op}. Arguments slot_empty {Op}.
Arguments qstep {Op}. Arguments qrun {Op}.
Arguments QAdd {Op}. Arguments QPop {Op}. Arguments QPeekFirst {Op}.
Arguments QPeekLast {Op}. Arguments QDirty {Op}. Arguments QClear {Op}.
Arguments RUnit {Op}. Arguments ROp {Op}. Arguments RTiles {Op}.
