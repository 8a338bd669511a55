(** The jobs of [parallel_compute_residual_maxflow] at the granularity of single
    memory accesses (tethys_graph.cpp:146-324, 463-503).

    A job is a program whose instructions read and write the two kinds of shared
    mutable cells: the fields [flow] and [rec_flow] of the edges, and the mutable
    field [parent_edge] of the inner vertices.  Everything else that a job reads
    (end points, adjacency lists, labels, capacities, the source and the sink) is
    not written while the jobs run, and is taken from the graph [st] on which they
    were started. *)
From stdpp Require Import prelude.
From Coq Require Import ZArith Lia.
From Verif Require Import Base GraphModel.
Local Open Scope Z_scope.

(** A program of a job (the lambda of tethys_graph.cpp:465-491) that returns an [A]:
    - [PRdFlow i r k] reads [flow] ([r = false]) or [rec_flow] of edge [i],
      tethys_graph.cpp:174, 208, 257, 271 and tethys_graph.hpp:152-158;
    - [PWrFlow i r z k] writes it, tethys_graph.hpp:152-158;
    - [PRdPar j k] reads the parent edge of inner vertex [j], tethys_graph.cpp:267-273
      and 303-307;
    - [PWrPar j p k] writes it, tethys_graph.cpp:197, 234;
    - [PUB] is an access out of range (std::vector::operator[]), [PFuel] a loop cut by
      the model. *)
Inductive prog (A : Type) : Type :=
| PRet (a : A)
| PUB
| PFuel
| PRdFlow (i : nat) (r : bool) (k : Z -> prog A)
| PWrFlow (i : nat) (r : bool) (z : Z) (k : prog A)
| PRdPar (j : nat) (k : option eptr -> prog A)
| PWrPar (j : nat) (p : eptr) (k : prog A).
Arguments PRet {A} a.
Arguments PUB {A}.
Arguments PFuel {A}.
Arguments PRdFlow {A} i r k.
Arguments PWrFlow {A} i r z k.
Arguments PRdPar {A} j k.
Arguments PWrPar {A} j p k.

(** Sequence of two programs; the semicolons of tethys_graph.cpp:466-490. *)
Fixpoint pbind {A B} (P : prog A) (K : A -> prog B) : prog B :=
  match P with
  | PRet a => K a
  | PUB => PUB
  | PFuel => PFuel
  | PRdFlow i r k => PRdFlow i r (fun z => pbind (k z) K)
  | PWrFlow i r z k => PWrFlow i r z (pbind k K)
  | PRdPar j k => PRdPar j (fun o => pbind (k o) K)
  | PWrPar j p k => PWrPar j p (pbind k K)
  end.

(** The local variables of the search that no other job sees, tethys_graph.cpp:149-155. *)
Record loc := Loc {
  l_visited : list bool;
  l_queue : list vptr;
  l_sinkp : option eptr;
  l_found : bool
}.

(** The loop over the outgoing edges ([r = false], tethys_graph.cpp:172-202) and over the
    incoming edges ([r = true], lines 206-244) of the vertex that was popped. *)
Fixpoint scan_p (st : graph) (comp : nat) (r : bool) (l : list eptr) (d : loc) : prog loc :=
  match l with
  | [] => PRet d
  | p :: l' =>
      match g_edges st !! ep_idx p with
      | None => PUB
      | Some e =>
          PRdFlow (ep_idx p) r (fun z =>
            if bool_decide (0 < z) then
              match edge_to e r with
              | VSink => PRet (Loc (l_visited d) (l_queue d)
                                   (Some (if r then reciprocal p else p)) true)
              | VSource => scan_p st comp r l' d
              | VInner j =>
                  match vat (l_visited d) j, vat (g_verts st) j with
                  | Ok vis, Ok w =>
                      if vis then scan_p st comp r l' d
                      else if bool_decide (v_comp w = comp)
                      then PWrPar j (if r then reciprocal p else p)
                             (scan_p st comp r l'
                                (Loc (<[j := true]> (l_visited d)) (VInner j :: l_queue d)
                                     (l_sinkp d) (l_found d)))
                      else scan_p st comp r l' d
                  | _, _ => PUB
                  end
              end
            else scan_p st comp r l' d)
      end
  end.

(** The main loop of the search, tethys_graph.cpp:159-245. *)
Fixpoint search_p (fuel : nat) (st : graph) (comp : nat) (d : loc) : prog loc :=
  match fuel with
  | O => PFuel
  | S f =>
      if l_found d then PRet d
      else match l_queue d with
      | [] => PRet d
      | v :: q =>
          match get_vertex (g_source st) (g_sink st) (g_verts st) v with
          | Ok vx =>
              pbind (scan_p st comp false (v_out vx)
                       (Loc (l_visited d) q (l_sinkp d) (l_found d))) (fun d1 =>
              pbind (scan_p st comp true (v_in vx) d1) (fun d2 =>
              search_p f st comp d2))
          | _ => PUB
          end
      end
  end.

(** One evaluation of [cur->parent_edge] (tethys_graph.cpp:267, 268, 271, 273, 303-307).
    The parent edges of the source and of the sink are not written by the jobs. *)
Definition rd_parent {A} (st : graph) (cur : vptr) (k : option eptr -> prog A) : prog A :=
  match cur with
  | VSource => k (v_parent (g_source st))
  | VSink => k (v_parent (g_sink st))
  | VInner j => PRdPar j k
  end.

(** [edges[p]] for a pointer just read, tethys_graph.cpp:268, 305: the null pointer is out
    of range. *)
Definition edge_at (st : graph) (o : option eptr) : option (eptr * edge) :=
  match o with
  | None => None
  | Some p => match g_edges st !! ep_idx p with Some e => Some (p, e) | None => None end
  end.

(** [is_reciprocal] of a pointer just read, tethys_graph.cpp:273, 307; false for the null
    pointer (tethys_graph.hpp:54-55). *)
Definition rec_of (o : option eptr) : bool :=
  match o with Some p => ep_rec p | None => false end.

(** The first walk along the parent edges, which computes the size and the flow of the
    path, tethys_graph.cpp:267-279.  Each evaluation of [cur->parent_edge] is a separate
    read. *)
Fixpoint walk1_p (fuel : nat) (st : graph) (cur : vptr) (size : nat) (flow : Z)
  : prog (nat * Z) :=
  match fuel with
  | O => PFuel
  | S f =>
      rd_parent st cur (fun o =>
      match o with
      | None => PRet (size, flow)
      | Some _ =>
          rd_parent st cur (fun o1 =>
          match edge_at st o1 with
          | None => PUB
          | Some (_, e) =>
              rd_parent st cur (fun o2 =>
              match edge_at st o2 with
              | None => PUB
              | Some (p2, _) =>
                  PRdFlow (ep_idx p2) (ep_rec p2) (fun z =>
                  rd_parent st cur (fun o3 =>
                  walk1_p f st (edge_from e (rec_of o3)) (S size) (Z.min z flow)))
              end)
          end)
      end)
  end.

(** The second walk, which fills the vector, tethys_graph.cpp:303-313.  [path] has the size
    computed by the first walk; [i] counts the entries already written, and a write before
    the first entry is undefined. *)
Fixpoint walk2_p (fuel : nat) (st : graph) (cur : vptr) (i : nat)
  (path : list (option eptr)) : prog (list (option eptr)) :=
  match fuel with
  | O => PFuel
  | S f =>
      rd_parent st cur (fun o =>
      match o with
      | None => PRet path
      | Some _ =>
          rd_parent st cur (fun o1 =>
          if bool_decide (i < length path)%nat then
            rd_parent st cur (fun o2 =>
            match edge_at st o2 with
            | None => PUB
            | Some (_, e) =>
                rd_parent st cur (fun o3 =>
                walk2_p f st (edge_from e (rec_of o3)) (S i)
                  (<[(length path - i - 1)%nat := o1]> path))
            end)
          else PUB)
      end)
  end.

(** SIZE_MAX, the initial flow of tethys_graph.cpp:249. *)
Definition size_max : Z := 18446744073709551615.

(** tethys_graph.cpp:146-324 [find_source_sink_path]: the path, as the vector that the walks
    filled, and its flow. *)
Definition find_path_p (st : graph) (comp : nat) : prog (list (option eptr) * Z) :=
  let n := length (g_verts st) in
  pbind (search_p (n + 2) st comp (Loc (replicate n false) [VSource] None false)) (fun d =>
  match l_sinkp d with
  | None => PRet ([], 0)
  | Some p =>
      match g_edges st !! ep_idx p with
      | None => PUB
      | Some e =>
          PRdFlow (ep_idx p) (ep_rec p) (fun z =>
          let cur := edge_from e (ep_rec p) in
          pbind (walk1_p (n + 2) st cur 1 (Z.min z size_max)) (fun r =>
          pbind (walk2_p (n + 2) st cur 1 (<[(r.1 - 1)%nat := Some p]> (replicate r.1 None)))
            (fun path => PRet (path, r.2))))
      end
  end).

(** tethys_graph.hpp:148-159 [update_flow]: two reads and two writes. *)
Definition update_flow_p {A} (p : eptr) (c : Z) (k : prog A) : prog A :=
  PRdFlow (ep_idx p) false (fun z =>
  PWrFlow (ep_idx p) false (if ep_rec p then z + c else z - c)
  (PRdFlow (ep_idx p) true (fun z' =>
   PWrFlow (ep_idx p) true (if ep_rec p then z' - c else z' + c) k))).

(** The loop of tethys_graph.cpp:477-480. *)
Fixpoint augment_p {A} (path : list (option eptr)) (c : Z) (k : prog A) : prog A :=
  match path with
  | [] => k
  | None :: _ => PUB
  | Some p :: path' => update_flow_p p c (augment_p path' c k)
  end.

(** One job, tethys_graph.cpp:465-491.  It returns what it added to the atomic counter
    [computed_capacity] (line 482); atomic additions commute, so the additions of a job are
    gathered.  The iteration counter and the logging (lines 481, 484-489) are not modelled. *)
Fixpoint job_p (fuel : nat) (st : graph) (comp : nat) (cap : Z) : prog Z :=
  match fuel with
  | O => PFuel
  | S f =>
      pbind (find_path_p st comp) (fun r =>
      match r.1 with
      | [] => PRet cap
      | _ => augment_p r.1 r.2 (job_p f st comp (cap + r.2))
      end)
  end.

(** Writing one of the two flows of an edge, tethys_graph.hpp:152-158. *)
Definition set_flow (r : bool) (z : Z) (e : edge) : edge :=
  if r then Edge (e_val e) (e_cap e) (e_flow e) z (e_start e) (e_end e)
  else Edge (e_val e) (e_cap e) z (e_recf e) (e_start e) (e_end e).

(** The shared memory after a write of a flow, tethys_graph.hpp:152-158. *)
Definition wr_flow (g : graph) (i : nat) (r : bool) (z : Z) : graph :=
  with_edges g (alter (set_flow r z) i (g_edges g)).
(** The shared memory after a write of a parent edge, tethys_graph.cpp:197, 234. *)
Definition wr_par (g : graph) (j : nat) (p : eptr) : graph :=
  with_verts g (alter (set_parent p) j (g_verts g)).

(** The jobs and the memory that they share, tethys_graph.cpp:463-503. *)
Record pool := Pool { jobs : list (prog Z); mem : graph }.

(** One access of one job.  A read of a cell that another job is about to write may return
    anything (a data race; tethys_graph.cpp:174 against tethys_graph.hpp:152-158): rules
    [j_race] and [j_race_par]. *)
Inductive jstep : pool -> pool -> Prop :=
| j_rdflow js g c i r k e :
    js !! c = Some (PRdFlow i r k) -> g_edges g !! i = Some e ->
    jstep (Pool js g) (Pool (<[c := k (edge_flow e r)]> js) g)
| j_race js g c i r k c' z' k' z :
    js !! c = Some (PRdFlow i r k) -> js !! c' = Some (PWrFlow i r z' k') ->
    jstep (Pool js g) (Pool (<[c := k z]> js) g)
| j_wrflow js g c i r z k e :
    js !! c = Some (PWrFlow i r z k) -> g_edges g !! i = Some e ->
    jstep (Pool js g) (Pool (<[c := k]> js) (wr_flow g i r z))
| j_rdpar js g c j k x :
    js !! c = Some (PRdPar j k) -> g_verts g !! j = Some x ->
    jstep (Pool js g) (Pool (<[c := k (v_parent x)]> js) g)
| j_race_par js g c j k c' p' k' o :
    js !! c = Some (PRdPar j k) -> js !! c' = Some (PWrPar j p' k') ->
    jstep (Pool js g) (Pool (<[c := k o]> js) g)
| j_wrpar js g c j p k x :
    js !! c = Some (PWrPar j p k) -> g_verts g !! j = Some x ->
    jstep (Pool js g) (Pool (<[c := k]> js) (wr_par g j p)).

(** The components are labelled and the jobs are created, tethys_graph.cpp:445-495. *)
Definition jobs_start (fuel : nat) (g : graph) : res pool :=
  match g_state g with
  | Building =>
      g' <~ compute_connected_components g;
      Ok (Pool ((fun c => job_p fuel g' c 0) <$> seq 0 (S (g_ncomp g'))) g')
  | _ => Throw InvalidArgument
  end.

(** All the jobs have been waited for (tethys_graph.cpp:500-503); [caps] are the amounts that
    they added to [computed_capacity]. *)
Definition jobs_done (s : pool) (caps : list Z) : Prop := jobs s = PRet <$> caps.
(** The state set after the jobs, tethys_graph.cpp:512. *)
Definition jobs_result (s : pool) : graph := with_state (mem s) ResidualComputed.
