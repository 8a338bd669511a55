(** Model of the Tethys allocator.
    Sources: lib/tethys/tethys_allocator.cpp and
    lib/include/sse/schemes/tethys/details/tethys_allocator.hpp. *)
From stdpp Require Import prelude.
From Coq Require Import ZArith Lia.
From Verif Require Import Base GraphModel.
Local Open Scope Z_scope.

(** Fields of [TethysAllocator], tethys_allocator.hpp:51-57.  [al_stash] is the
    std::set of stashed edges, kept sorted.  Lengths are unbounded integers. *)
Record allocator := Alloc {
  al_graph : graph;
  al_size : nat;
  al_page : Z;
  al_done : bool;
  al_stash : list eptr
}.

(** Constructor, tethys_allocator.cpp:18-23. *)
Definition new_allocator (table_size : nat) (page_size : Z) : res allocator :=
  g <~ new_graph table_size;
  Ok (Alloc g table_size page_size false []).

(** tethys_allocator.cpp:26-34 *)
Definition get_stashed_edges (a : allocator) : res (list eptr) :=
  if al_done a then Ok (al_stash a) else Throw InvalidArgument.

(** tethys_allocator.cpp:36-44 *)
Definition get_allocation_graph (a : allocator) : res graph :=
  if al_done a then Ok (al_graph a) else Throw InvalidArgument.

(** tethys_allocator.cpp:46-64.  [index = None] is the reserved index ~0. *)
Definition alloc_insert (a : allocator) (h0 h1 : nat) (len : Z) (index : option nat)
  : res allocator :=
  if al_done a then Throw InvalidArgument
  else match index with
  | None => Throw InvalidArgument
  | Some _ =>
      if bool_decide (al_page a < len) then Throw InvalidArgument
      else
        r <~ add_edge (al_graph a) index len h0 h1;
        Ok (Alloc r.2 (al_size a) (al_page a) (al_done a) (al_stash a))
  end.

(** Step 1 of allocate(), tethys_allocator.cpp:93-107, over the vertices [l]. *)
Fixpoint alloc_degrees (page : Z) (l : list nat) (g : graph) : res graph :=
  match l with
  | [] => Ok g
  | i :: l' =>
      d <~ get_vertex_out_capacity g (VInner i);
      if bool_decide (page < d) then
        r <~ add_edge_from_source g None (d - page) i;
        alloc_degrees page l' r.2
      else if bool_decide (d < page) then
        r <~ add_edge_to_sink g None (page - d) i;
        alloc_degrees page l' r.2
      else alloc_degrees page l' g
  end.

(** Order of EdgePtr, tethys_graph.hpp:76-80. *)
Definition eptr_ltb (p q : eptr) : bool :=
  bool_decide (ep_idx p < ep_idx q)%nat ||
  (bool_decide (ep_idx p = ep_idx q) && (negb (ep_rec p) && ep_rec q)).

(** std::set::insert, at tethys_allocator.cpp:150 and 170. *)
Fixpoint set_insert (p : eptr) (s : list eptr) : list eptr :=
  match s with
  | [] => [p]
  | q :: s' =>
      if eptr_ltb p q then p :: s
      else if eptr_ltb q p then q :: set_insert p s'
      else s
  end.

(** The field rec_flow or flow, tethys_allocator.cpp:143 and 163. *)
Definition get_field (rec : bool) (e : edge) : Z := if rec then e_recf e else e_flow e.
(** Assignment of rec_flow or flow, tethys_allocator.cpp:146 and 166. *)
Definition set_field (rec : bool) (x : Z) (e : edge) : edge :=
  if rec then Edge (e_val e) (e_cap e) (e_flow e) x (e_start e) (e_end e)
  else Edge (e_val e) (e_cap e) x (e_recf e) (e_start e) (e_end e).

(** The loop over the incoming edges of a vertex ([rec = true],
    tethys_allocator.cpp:135-154) or over its outgoing edges ([rec = false],
    lines 156-174). *)
Fixpoint trim_edges (page : Z) (rec : bool) (l : list eptr)
  (es : list edge) (load : Z) (stash : list eptr) : res (list edge * Z * list eptr) :=
  match l with
  | [] => Ok (es, load, stash)
  | p :: l' =>
      e <~ vat es (ep_idx p);
      match e_val e with
      | None => trim_edges page rec l' es load stash
      | Some _ =>
          let f := get_field rec e in
          if bool_decide (page < load + f) then
            trim_edges page rec l' (alter (set_field rec (page - load)) (ep_idx p) es)
              page (set_insert p stash)
          else trim_edges page rec l' es (load + f) stash
      end
  end.

(** Step 5 of allocate(), tethys_allocator.cpp:132-175. *)
Fixpoint trim_vertices (page : Z) (vs : list vertex) (es : list edge) (stash : list eptr)
  : res (list edge * list eptr) :=
  match vs with
  | [] => Ok (es, stash)
  | v :: vs' =>
      r1 <~ trim_edges page true (v_in v) es 0 stash;
      r2 <~ trim_edges page false (v_out v) r1.1.1 r1.1.2 r1.2;
      trim_vertices page vs' r2.1.1 r2.2
  end.

(** tethys_allocator.cpp:66-178.  [fuel] bounds the augmentation loop. *)
Definition allocate (fuel : nat) (a : allocator) : res allocator :=
  if al_done a then Throw InvalidArgument
  else
    g1 <~ alloc_degrees (al_page a) (seq 0 (al_size a)) (al_graph a);
    g2 <~ compute_residual_maxflow fuel g1;
    r <~ trim_vertices (al_page a) (g_verts g2) (g_edges g2) (al_stash a);
    Ok (Alloc (with_edges g2 r.1) (al_size a) (al_page a) true r.2).
