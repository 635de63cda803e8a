(** How dabs travel from draw_dab to the pixels: process_tile, end_atomic and
    get_color of mypaint-tiled-surface.c on top of the operation queue.  The
    content of a tile and the effect of one operation on it are parameters here
    (they are filled in by Dab.v). *)
From Verif Require Import Base Queue.

Section Plumb.
  Variables (Op T : Type).
  (** process_op (496-562) as a list of small steps, each reading and writing the
      buffer of that tile only *)
  Variable micro : tile -> Op -> list (T -> outcome T).

  Definition steps (ms : list (T -> outcome T)) (v : T) : outcome T := ofold (fun v f => f v) ms v.
  Definition apply (t : tile) (v : T) (o : Op) : outcome T := steps (micro t o) v.

  (** [sf_pix] is what the tile backend holds: a granted request for a tile gives
      access to exactly that content (see FixedSurface.v for one backend). *)
  Record surf := mkSurf { sf_q : queue Op; sf_pix : tile -> T }.
  Definition set_pix (p : tile -> T) (t : tile) (v : T) : tile -> T :=
    fun t' => if tile_equal t t' then v else p t'.

  (* the loop of process_tile, 587-591.  [fuel] bounds the number of operations
     of this tile; there are always enough of it (PlumbProofs.v) *)
  Fixpoint drain (fuel : nat) (q : queue Op) (t : tile) (o : Op) (v : T) : outcome (queue Op * T) :=
    match fuel with
    | O => UB
    | S f =>
        let* v := apply t v o in
        let* (o', q) := operation_queue_pop q t in
        match o' with
        | None => Ok (q, v)
        | Some o' => drain f q t o' v
        end
    end.
  Definition pending_count (q : queue Op) : nat :=
    fold_right (fun s n => (match s with Some l => length l | None => 0 end + n)%nat) 0%nat (q_map q).

  (* process_tile, 565-594.  [can t]: does the backend hand out tile [t].  When it
     does not, the popped operation is dropped. *)
  Definition process_tile (can : tile -> bool) (s : surf) (t : tile) : outcome surf :=
    let* (o, q) := operation_queue_pop (sf_q s) t in
    match o with
    | None => Ok (mkSurf q (sf_pix s))
    | Some o =>
        if can t then
          let* (q, v) := drain (S (pending_count q)) q t o (sf_pix s t) in
          Ok (mkSurf q (set_pix (sf_pix s) t v))
        else Ok (mkSurf q (sf_pix s))
    end.

  (* draw_dab_internal, 671-682: one copy of the operation per tile *)
  Definition enqueue (s : surf) (o : Op) (ts : list tile) : outcome surf :=
    let* q := ofold (fun q t => operation_queue_add q t o) ts (sf_q s) in
    Ok (mkSurf q (sf_pix s)).

  (* mypaint_tiled_surface_end_atomic, 109-121, sequential *)
  Definition flush (can : tile -> bool) (s : surf) : outcome surf :=
    let (ts, q) := operation_queue_get_dirty_tiles (sf_q s) in
    let* s := ofold (process_tile can) ts (mkSurf q (sf_pix s)) in
    Ok (mkSurf (operation_queue_clear_dirty_tiles (sf_q s)) (sf_pix s)).

  (* get_color, 858-897: one row of tiles; a refused read request leaves the row.
     Returns the tiles seen with their content. *)
  Fixpoint read_row (canw canr : tile -> bool) (row : list tile) (s : surf) (seen : list (tile * T))
    : outcome (surf * list (tile * T)) :=
    match row with
    | [] => Ok (s, seen)
    | t :: row =>
        let* s := process_tile canw s t in
        if canr t then read_row canw canr row s (seen ++ [(t, sf_pix s t)])
        else Ok (s, seen)
    end.
  Definition read (canw canr : tile -> bool) (rows : list (list tile)) (s : surf) : outcome (surf * list (tile * T)) :=
    ofold (fun a row => read_row canw canr row (fst a) (snd a)) rows (s, []).

  (** ** Parallel end_atomic (114-117): every iteration of the loop is a worker *)
  Inductive work := Start | Busy (ms : list (T -> outcome T)) | Done.
  Record par := mkPar { p_surf : surf; p_work : list (tile * work) }.

  (** the next step of worker [i] (no effect when it has finished) *)
  Definition worker_step (can : tile -> bool) (p : par) (i : nat) : outcome par :=
    let s := p_surf p in
    match nth_error (p_work p) i with
    | None | Some (_, Done) => Ok p
    | Some (t, Busy (f :: ms)) =>
        let* v := f (sf_pix s t) in
        Ok (mkPar (mkSurf (sf_q s) (set_pix (sf_pix s) t v)) (upd (p_work p) i (t, Busy ms)))
    | Some (t, Busy []) =>
        let* (o, q) := operation_queue_pop (sf_q s) t in
        Ok (mkPar (mkSurf q (sf_pix s)) (upd (p_work p) i (t, match o with Some o => Busy (micro t o) | None => Done end)))
    | Some (t, Start) =>
        let* (o, q) := operation_queue_pop (sf_q s) t in
        Ok (mkPar (mkSurf q (sf_pix s))
              (upd (p_work p) i (t, match o with Some o => if can t then Busy (micro t o) else Done | None => Done end)))
    end.
  Definition all_done (p : par) : Prop := forall t w, In (t, w) (p_work p) -> w = Done.
  (** the state when the workers start, and when the threads have joined *)
  Definition par_start (s : surf) : par :=
    let (ts, q) := operation_queue_get_dirty_tiles (sf_q s) in
    mkPar (mkSurf q (sf_pix s)) (map (fun t => (t, Start)) ts).
  Definition par_end (p : par) : surf :=
    mkSurf (operation_queue_clear_dirty_tiles (sf_q (p_surf p))) (sf_pix (p_surf p)).

  (** ** Histories *)
  Inductive ev :=
  | Draw (o : Op) (ts : list tile)
  | Read (canw canr : tile -> bool) (rows : list (list tile))
  | End (can : tile -> bool).

  Definition ev_step (a : surf * list (list (tile * T))) (e : ev) : outcome (surf * list (list (tile * T))) :=
    let (s, out) := a in
    match e with
    | Draw o ts => let* s := enqueue s o ts in Ok (s, out ++ [[]])
    | Read canw canr rows => let* (s, seen) := read canw canr rows s in Ok (s, out ++ [seen])
    | End can => let* s := flush can s in Ok (s, out ++ [[]])
    end.
  (** final state and, per event, the tiles seen *)
  Definition run (s : surf) (evs : list ev) : outcome (surf * list (list (tile * T))) := ofold ev_step evs (s, []).
End Plumb.
Arguments mkSurf {Op T}. Arguments sf_q {Op T}. Arguments sf_pix {Op T}.
Arguments Draw {Op}. Arguments Read {Op}. Arguments End {Op}.
Arguments Start {T}. Arguments Busy {T}. Arguments Done {T}.
Arguments mkPar {Op T}. Arguments p_surf {Op T}. Arguments p_work {Op T}.
