(** Model of the Tethys allocation graph.
    Sources: lib/include/sse/schemes/tethys/details/tethys_graph.hpp and
    lib/tethys/tethys_graph.cpp. *)
From stdpp Require Import prelude.
From Coq Require Import ZArith Lia.
From Verif Require Import Base.
Local Open Scope Z_scope.

(** tethys_graph.hpp:17-44 [VertexPtr] and the constants [kSourcePtr],
    [kSinkPtr].  The null pointer is never stored in a vertex queue or in an
    added edge, so it is not represented. *)
Inductive vptr := VSource | VSink | VInner (i : nat).

(** tethys_graph.hpp:47-88 [EdgePtr]: a reciprocal bit and an index.  The null
    pointer (line 92) is [None] of [option eptr].  Simplification: the index is
    unbounded instead of 63 bits. *)
Record eptr := EP { ep_rec : bool; ep_idx : nat }.

(** operator== of VertexPtr, tethys_graph.hpp:28-36. *)
Global Instance vptr_eq_dec : EqDecision vptr.
Proof. solve_decision. Defined.
(** operator== of EdgePtr, tethys_graph.hpp:64-74. *)
Global Instance eptr_eq_dec : EqDecision eptr.
Proof. solve_decision. Defined.

(** tethys_graph.hpp:82-85 *)
Definition reciprocal (p : eptr) : eptr := EP (negb (ep_rec p)) (ep_idx p).

(** tethys_graph.hpp:97-118 [Edge].  [e_val = None] is the reserved value index
    ~0 (kEmptyIndexValue).  Flows are unbounded integers; the theorems show
    that they stay between 0 and the capacity, so size_t does not wrap. *)
Record edge := Edge {
  e_val : option nat;
  e_cap : Z;
  e_flow : Z;
  e_recf : Z;
  e_start : vptr;
  e_end : vptr
}.

(** tethys_graph.hpp:188-199 [Vertex]. *)
Record vertex := Vertex {
  v_in : list eptr;
  v_out : list eptr;
  v_parent : option eptr;
  v_comp : nat
}.

(** tethys_graph.hpp:275-280 *)
Inductive gstate := Building | ResidualComputed | MaxFlowComputed.

(** tethys_graph.hpp:356-365, fields of [TethysGraph]. *)
Record graph := Graph {
  g_state : gstate;
  g_size : nat;
  g_source : vertex;
  g_sink : vertex;
  g_verts : list vertex;
  g_edges : list edge;
  g_ncomp : nat
}.

(** A new vertex: the default values of tethys_graph.hpp:188-193. *)
Definition empty_vertex : vertex := Vertex [] [] None 0.

(** Constructor, tethys_graph.hpp:282-288. *)
Definition new_graph (n : nat) : res graph :=
  match n with
  | O => Throw InvalidArgument
  | _ => Ok (Graph Building n empty_vertex empty_vertex
                   (replicate n empty_vertex) [] 0)
  end.

(** tethys_graph.cpp:17-39 [get_vertex]; unchecked access for inner vertices. *)
Definition get_vertex (src snk : vertex) (vs : list vertex) (v : vptr) : res vertex :=
  match v with
  | VSink => Ok snk
  | VSource => Ok src
  | VInner i => vat vs i
  end.

(** out_edges.push_back, tethys_graph.cpp:68, 95, 124. *)
Definition add_out (p : eptr) (v : vertex) : vertex :=
  Vertex (v_in v) (v_out v ++ [p]) (v_parent v) (v_comp v).
(** in_edges.push_back, tethys_graph.cpp:69, 96, 125. *)
Definition add_in (p : eptr) (v : vertex) : vertex :=
  Vertex (v_in v ++ [p]) (v_out v) (v_parent v) (v_comp v).
(** Assignment of parent_edge, tethys_graph.cpp:197 and 234. *)
Definition set_parent (p : eptr) (v : vertex) : vertex :=
  Vertex (v_in v) (v_out v) (Some p) (v_comp v).
(** Assignment of component, tethys_graph.cpp:336, 364, 383, 388. *)
Definition set_comp (c : nat) (v : vertex) : vertex :=
  Vertex (v_in v) (v_out v) (v_parent v) c.

(** tethys_graph.cpp:41-72 *)
Definition add_edge (g : graph) (vi : option nat) (cap : Z) (s e : nat)
  : res (eptr * graph) :=
  match g_state g with
  | Building =>
      if bool_decide (g_size g <= s)%nat then Throw OutOfRange
      else if bool_decide (g_size g <= e)%nat then Throw OutOfRange
      else
        let p := EP false (length (g_edges g)) in
        Ok (p, Graph (g_state g) (g_size g) (g_source g) (g_sink g)
               (alter (add_in p) e (alter (add_out p) s (g_verts g)))
               (g_edges g ++ [Edge vi cap cap 0 (VInner s) (VInner e)])
               (g_ncomp g))
  | _ => Throw InvalidArgument
  end.

(** tethys_graph.cpp:74-99 *)
Definition add_edge_from_source (g : graph) (vi : option nat) (cap : Z) (e : nat)
  : res (eptr * graph) :=
  match g_state g with
  | Building =>
      if bool_decide (g_size g <= e)%nat then Throw OutOfRange
      else
        let p := EP false (length (g_edges g)) in
        Ok (p, Graph (g_state g) (g_size g) (add_out p (g_source g)) (g_sink g)
               (alter (add_in p) e (g_verts g))
               (g_edges g ++ [Edge vi cap cap 0 VSource (VInner e)])
               (g_ncomp g))
  | _ => Throw InvalidArgument
  end.

(** tethys_graph.cpp:101-128 *)
Definition add_edge_to_sink (g : graph) (vi : option nat) (cap : Z) (s : nat)
  : res (eptr * graph) :=
  match g_state g with
  | Building =>
      if bool_decide (g_size g <= s)%nat then Throw OutOfRange
      else
        let p := EP false (length (g_edges g)) in
        Ok (p, Graph (g_state g) (g_size g) (g_source g) (add_in p (g_sink g))
               (alter (add_out p) s (g_verts g))
               (g_edges g ++ [Edge vi cap cap 0 (VInner s) VSink])
               (g_ncomp g))
  | _ => Throw InvalidArgument
  end.

(** tethys_graph.hpp:139-146 [edge_flow]. *)
Definition edge_flow (e : edge) (rec : bool) : Z :=
  if rec then e_recf e else e_flow e.

(** End of an edge followed in its natural or reciprocal direction;
    used at tethys_graph.cpp:175, 209. *)
Definition edge_to (e : edge) (rec : bool) : vptr :=
  if rec then e_start e else e_end e.
(** Start of an edge followed in its natural or reciprocal direction;
    used at tethys_graph.cpp:259-263, 273-277. *)
Definition edge_from (e : edge) (rec : bool) : vptr :=
  if rec then e_end e else e_start e.

(** tethys_graph.hpp:148-159 [update_flow] on one edge. *)
Definition upd_edge (rec : bool) (c : Z) (e : edge) : edge :=
  if rec
  then Edge (e_val e) (e_cap e) (e_flow e + c) (e_recf e - c) (e_start e) (e_end e)
  else Edge (e_val e) (e_cap e) (e_flow e - c) (e_recf e + c) (e_start e) (e_end e).

(** tethys_graph.hpp:148-159 [EdgeVec::update_flow]. *)
Definition update_flow (es : list edge) (p : eptr) (c : Z) : list edge :=
  alter (upd_edge (ep_rec p) c) (ep_idx p) es.

(** Local variables of [find_source_sink_path], tethys_graph.cpp:149-155.
    [d_vs] is the vertex vector, because the search writes the mutable field
    [parent_edge]. *)
Record dfs := Dfs {
  d_vs : list vertex;
  d_visited : list bool;
  d_queue : list vptr;
  d_sinkp : option eptr;
  d_found : bool
}.

(** Marking a vertex: tethys_graph.cpp:196-198 and 231-235. *)
Definition dfs_push (d : dfs) (j : nat) (p : eptr) : dfs :=
  Dfs (alter (set_parent p) j (d_vs d)) (<[j := true]> (d_visited d))
      (VInner j :: d_queue d) (d_sinkp d) (d_found d).

(** The loop over the outgoing edges ([rec = false], tethys_graph.cpp:172-202)
    and the loop over the incoming edges ([rec = true], lines 206-244); the two
    loops are identical up to the direction.  The error message on standard
    error (lines 189-192) is not modelled. *)
Fixpoint scan (es : list edge) (comp : nat) (rec : bool) (l : list eptr) (d : dfs)
  : res dfs :=
  match l with
  | [] => Ok d
  | p :: l' =>
      e <~ vat es (ep_idx p);
      if bool_decide (0 < edge_flow e rec) then
        match edge_to e rec with
        | VSink =>
            Ok (Dfs (d_vs d) (d_visited d) (d_queue d)
                    (Some (if rec then reciprocal p else p)) true)
        | VSource => scan es comp rec l' d
        | VInner j =>
            vis <~ vat (d_visited d) j;
            w <~ vat (d_vs d) j;
            if vis then scan es comp rec l' d
            else if bool_decide (v_comp w = comp)
            then scan es comp rec l' (dfs_push d j (if rec then reciprocal p else p))
            else scan es comp rec l' d
        end
      else scan es comp rec l' d
  end.

(** The main loop of the search, tethys_graph.cpp:159-245.  [fuel] bounds the
    number of iterations. *)
Fixpoint dfs_loop (fuel : nat) (src snk : vertex) (es : list edge) (comp : nat)
  (d : dfs) : res dfs :=
  match fuel with
  | O => OutOfFuel
  | S f =>
      if d_found d then Ok d
      else match d_queue d with
      | [] => Ok d
      | v :: q =>
          vx <~ get_vertex src snk (d_vs d) v;
          d1 <~ scan es comp false (v_out vx)
                  (Dfs (d_vs d) (d_visited d) q (d_sinkp d) (d_found d));
          d2 <~ scan es comp true (v_in vx) d1;
          dfs_loop f src snk es comp d2
      end
  end.

(** Path reconstruction, tethys_graph.cpp:247-317.  The code walks the parent
    chain twice (once for the size and the flow, once to fill the vector); the
    model walks it once.  [acc] is the suffix of the path already known. *)
Fixpoint walk (fuel : nat) (src snk : vertex) (vs : list vertex) (es : list edge)
  (cur : vptr) (acc : list eptr) (flow : Z) : res (list eptr * Z) :=
  match fuel with
  | O => OutOfFuel
  | S f =>
      cv <~ get_vertex src snk vs cur;
      match v_parent cv with
      | None => Ok (acc, flow)
      | Some p =>
          e <~ vat es (ep_idx p);
          walk f src snk vs es (edge_from e (ep_rec p)) (p :: acc)
               (Z.min (edge_flow e (ep_rec p)) flow)
      end
  end.

(** tethys_graph.cpp:146-324 [find_source_sink_path].  Returns the path, its
    flow and the vertices (whose parent edges were updated).  Simplification:
    the minimum starts from the flow of the last edge instead of
    min(SIZE_MAX, flow). *)
Definition find_path (g : graph) (comp : nat) : res (list eptr * Z * list vertex) :=
  let n := length (g_verts g) in
  d <~ dfs_loop (n + 2) (g_source g) (g_sink g) (g_edges g) comp
         (Dfs (g_verts g) (replicate n false) [VSource] None false);
  match d_sinkp d with
  | None => Ok ([], 0, d_vs d)
  | Some p =>
      e <~ vat (g_edges g) (ep_idx p);
      r <~ walk (n + 2) (g_source g) (g_sink g) (d_vs d) (g_edges g)
             (edge_from e (ep_rec p)) [p] (edge_flow e (ep_rec p));
      Ok (r.1, r.2, d_vs d)
  end.

(** A graph whose vertices were modified (parent edges, components:
    tethys_graph.cpp:130-144, 197, 336). *)
Definition with_verts (g : graph) (vs : list vertex) : graph :=
  Graph (g_state g) (g_size g) (g_source g) (g_sink g) vs (g_edges g) (g_ncomp g).
(** A graph whose edges were modified (tethys_graph.cpp:421-424). *)
Definition with_edges (g : graph) (es : list edge) : graph :=
  Graph (g_state g) (g_size g) (g_source g) (g_sink g) (g_verts g) es (g_ncomp g).
(** Assignment of state, tethys_graph.cpp:442, 512, 526. *)
Definition with_state (g : graph) (s : gstate) : graph :=
  Graph s (g_size g) (g_source g) (g_sink g) (g_verts g) (g_edges g) (g_ncomp g).
(** A graph whose components were counted, tethys_graph.cpp:326-396. *)
Definition with_ncomp (g : graph) (n : nat) : graph :=
  Graph (g_state g) (g_size g) (g_source g) (g_sink g) (g_verts g) (g_edges g) n.

(** tethys_graph.cpp:421-424 and 477-480: update the flow along a path. *)
Definition augment (es : list edge) (path : list eptr) (c : Z) : list edge :=
  fold_left (fun es p => update_flow es p c) path es.

(** One iteration of the augmentation loop for a component,
    tethys_graph.cpp:411-435 (component 0) and 466-490: [None] when no path was
    found.  The iteration counters and the logging are not modelled. *)
Definition aug_step (g : graph) (comp : nat) : res (option graph) :=
  r <~ find_path g comp;
  let '(path, c, vs) := r in
  match path with
  | [] => Ok None
  | _ => Ok (Some (with_edges (with_verts g vs) (augment (g_edges g) path c)))
  end.

(** The augmentation loop, tethys_graph.cpp:411-435, with fuel. *)
Fixpoint aug_loop (fuel : nat) (g : graph) (comp : nat) : res graph :=
  match fuel with
  | O => OutOfFuel
  | S f =>
      o <~ aug_step g comp;
      match o with
      | None => Ok g
      | Some g' => aug_loop f g' comp
      end
  end.

(** tethys_graph.cpp:401-443 [compute_residual_maxflow]. *)
Definition compute_residual_maxflow (fuel : nat) (g : graph) : res graph :=
  match g_state g with
  | Building =>
      g' <~ aug_loop fuel g 0;
      Ok (with_state g' ResidualComputed)
  | _ => Throw InvalidArgument
  end.

(** tethys_graph.cpp:515-527 [transform_residual_to_flow]. *)
Definition transform_residual_to_flow (g : graph) : res graph :=
  match g_state g with
  | ResidualComputed =>
      Ok (with_state
            (with_edges g
               (map (fun e => Edge (e_val e) (e_cap e) (e_recf e) 0 (e_start e) (e_end e))
                    (g_edges g)))
            MaxFlowComputed)
  | _ => Throw InvalidArgument
  end.

(** Sum of a quantity over a list of edge pointers; the accumulation loops of
    tethys_graph.cpp:536-540, 565-612. *)
Fixpoint sum_ptrs (f : edge -> Z) (es : list edge) (l : list eptr) : res Z :=
  match l with
  | [] => Ok 0
  | p :: l' =>
      e <~ vat es (ep_idx p);
      s <~ sum_ptrs f es l';
      Ok (f e + s)
  end.

(** tethys_graph.cpp:529-543 [get_flow]. *)
Definition get_flow (g : graph) : res Z :=
  match g_state g with
  | MaxFlowComputed => sum_ptrs e_flow (g_edges g) (v_out (g_source g))
  | _ => Throw InvalidArgument
  end.

(** tethys_graph.cpp:545-548 [get_edge_capacity]. *)
Definition get_edge_capacity (g : graph) (p : eptr) : res Z :=
  e <~ vat (g_edges g) (ep_idx p); Ok (e_cap e).

(** tethys_graph.cpp:550-558 [get_edge_flow]. *)
Definition get_edge_flow (g : graph) (p : eptr) : res Z :=
  match g_state g with
  | MaxFlowComputed => e <~ vat (g_edges g) (ep_idx p); Ok (e_flow e)
  | _ => Throw InvalidArgument
  end.

(** tethys_graph.cpp:561-570 *)
Definition get_vertex_in_capacity (g : graph) (v : vptr) : res Z :=
  vx <~ get_vertex (g_source g) (g_sink g) (g_verts g) v;
  sum_ptrs e_cap (g_edges g) (v_in vx).
(** tethys_graph.cpp:572-581 *)
Definition get_vertex_out_capacity (g : graph) (v : vptr) : res Z :=
  vx <~ get_vertex (g_source g) (g_sink g) (g_verts g) v;
  sum_ptrs e_cap (g_edges g) (v_out vx).

(** tethys_graph.cpp:583-597 *)
Definition get_vertex_in_flow (g : graph) (v : vptr) : res Z :=
  match g_state g with
  | MaxFlowComputed =>
      vx <~ get_vertex (g_source g) (g_sink g) (g_verts g) v;
      sum_ptrs e_flow (g_edges g) (v_in vx)
  | _ => Throw InvalidArgument
  end.
(** tethys_graph.cpp:599-613 *)
Definition get_vertex_out_flow (g : graph) (v : vptr) : res Z :=
  match g_state g with
  | MaxFlowComputed =>
      vx <~ get_vertex (g_source g) (g_sink g) (g_verts g) v;
      sum_ptrs e_flow (g_edges g) (v_out vx)
  | _ => Throw InvalidArgument
  end.

(** One of the two neighbour loops of [compute_connected_components]
    (tethys_graph.cpp:350-366 with [rec = false], 370-385 with [rec = true]):
    unlabelled neighbours get the label [ci] and are queued. *)
Fixpoint cc_scan (es : list edge) (ci : nat) (rec : bool) (l : list eptr)
  (vs : list vertex) (q : list nat) : res (list vertex * list nat) :=
  match l with
  | [] => Ok (vs, q)
  | p :: l' =>
      e <~ vat es (ep_idx p);
      match edge_to e rec with
      | VSource | VSink => cc_scan es ci rec l' vs q
      | VInner j =>
          w <~ vat vs j;
          if bool_decide (v_comp w = 0%nat)
          then cc_scan es ci rec l' (alter (set_comp ci) j vs) (j :: q)
          else cc_scan es ci rec l' vs q
      end
  end.

(** The exploration loop, tethys_graph.cpp:342-386.  [sz] is component_size. *)
Fixpoint cc_loop (fuel : nat) (es : list edge) (ci : nat) (vs : list vertex)
  (q : list nat) (sz : nat) : res (list vertex * nat) :=
  match fuel with
  | O => OutOfFuel
  | S f =>
      match q with
      | [] => Ok (vs, sz)
      | i :: q' =>
          v <~ vat vs i;
          r1 <~ cc_scan es ci false (v_out v) vs q';
          r2 <~ cc_scan es ci true (v_in v) r1.1 r1.2;
          cc_loop f es ci r2.1 r2.2 (S sz)
      end
  end.

(** The outer loop over the vertices, tethys_graph.cpp:330-394; [idx] are the
    vertex indices still to visit, [ci] is component_index. *)
Fixpoint cc_outer (es : list edge) (idx : list nat) (vs : list vertex) (ci : nat)
  : res (list vertex * nat) :=
  match idx with
  | [] => Ok (vs, ci)
  | vi :: idx' =>
      v <~ vat vs vi;
      if bool_decide (v_comp v <> 0%nat) then cc_outer es idx' vs ci
      else
        r <~ cc_loop (length vs + 2) es ci (alter (set_comp ci) vi vs) [vi] 0;
        if bool_decide (r.2 = 1%nat)
        then cc_outer es idx' (alter (set_comp 0) vi r.1) ci
        else cc_outer es idx' r.1 (S ci)
  end.

(** tethys_graph.cpp:326-399 [compute_connected_components].  The printed
    statistics are not modelled. *)
Definition compute_connected_components (g : graph) : res graph :=
  r <~ cc_outer (g_edges g) (seq 0 (length (g_verts g))) (g_verts g) 1;
  Ok (with_ncomp (with_verts g r.1) (r.2 - 1)).

(** State of [parallel_compute_residual_maxflow] while its jobs run,
    tethys_graph.cpp:463-503: the shared graph and, for each component, whether
    its job has finished.  Simplification: a job is interleaved with the others
    at the granularity of one loop iteration (lines 467-489); RaceModel.v interleaves
    the single memory accesses. *)
Record par := Par { par_g : graph; par_done : list bool }.

(** tethys_graph.cpp:445-463 *)
Definition par_start (g : graph) : res par :=
  match g_state g with
  | Building =>
      g' <~ compute_connected_components g;
      Ok (Par g' (replicate (S (g_ncomp g')) false))
  | _ => Throw InvalidArgument
  end.

(** One iteration of one job, tethys_graph.cpp:466-490. *)
Inductive par_step : par -> par -> Prop :=
| par_step_aug g dn c g' :
    dn !! c = Some false -> aug_step g c = Ok (Some g') ->
    par_step (Par g dn) (Par g' dn)
| par_step_end g dn c :
    dn !! c = Some false -> aug_step g c = Ok None ->
    par_step (Par g dn) (Par g (<[c := true]> dn)).

(** All jobs have been waited for, tethys_graph.cpp:500-503 and 512. *)
Definition par_finished (s : par) : Prop := Forall (fun b => b = true) (par_done s).
(** The state set after the jobs, tethys_graph.cpp:512. *)
Definition par_result (s : par) : graph := with_state (par_g s) ResidualComputed.
