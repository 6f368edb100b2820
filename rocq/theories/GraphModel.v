(** The network graph and its routing table: src/main/network/graph/mod.rs.

    Simplified: the GML parser is not modelled, a graph is given by its number of nodes and its
    edges with the latency already converted to nanoseconds (lines 327-334). Packet losses are
    [f32] values in [0,1] (checked on parsing, lines 99-101); each of them is a multiple of
    2^-149, so a loss is an integer here, and the rounded operations [1f32 - x] and [x * y] are
    parameters of the model ([fl_sub1], [fl_mul]). The dijkstra algorithm is petgraph's
    ([petgraph::algo::dijkstra], not in /repo), its [BinaryHeap] is a bag with an arbitrary choice
    among equal minima ([pop]). *)
From Verif Require Import Base FMap.

(** PathProperties, mod.rs 286-293 *)
Record props := Props { latency : Z; loss : Z }.

(** PartialOrd for PathProperties, mod.rs 295-303: latency first, then loss. *)
Definition plt (a b : props) : bool :=
  (latency a <? latency b) || ((latency a =? latency b) && (loss a <? loss b)).
(** PartialEq, mod.rs 305-310 *)
Definition peq (a b : props) : bool := (latency a =? latency b) && (loss a =? loss b).

(** Default for PathProperties (derived), mod.rs 287 *)
Definition pdefault : props := Props 0 0.

(** ShadowEdge, mod.rs 60-68, with its conversion to PathProperties (327-334). *)
Record edge := Edge { e_src : Z; e_dst : Z; e_w : props }.

(** NetworkGraph, mod.rs 112-117: node indexes are 0 .. count-1. *)
Record graph := Graph { directed : bool; count : nat; edges : list edge }.

Definition node_list (g : graph) : list Z := map Z.of_nat (seq 0 (count g)).

(** petgraph's [Graph::edges]: the outgoing edges of a directed graph, all incident edges of an
    undirected one, with the other endpoint as target. *)
Definition edges_at (g : graph) (a : Z) : list (Z * props) :=
  flat_map (fun e =>
    if e_src e =? a then [(e_dst e, e_w e)]
    else if negb (directed g) && (e_dst e =? a) then [(e_src e, e_w e)]
    else []) (edges g).

(** petgraph's [Graph::edges_connecting] *)
Definition edges_connecting (g : graph) (a b : Z) : list props :=
  map snd (filter (fun p => fst p =? b) (edges_at g a)).

(** Result of the fallible methods. *)
Inductive gres (A : Type) := G_ok (a : A) | G_err.
Arguments G_ok {A} a.
Arguments G_err {A}.

(** NetworkGraph::get_edge_weight, mod.rs 251-283: an error unless there is exactly one edge. *)
Definition get_edge_weight (g : graph) (a b : Z) : gres props :=
  match edges_connecting g a b with
  | [w] => G_ok w
  | _ => G_err
  end.

Definition heap := list (props * Z).

(** Local variables of petgraph's dijkstra. *)
Record dstate := DState { visited : list Z; scores : fmap Z props; visit_next : heap }.

Inductive dres := D_scores (m : fmap Z props) | D_panic | D_fuel.

Definition is_visited (st : dstate) (n : Z) : bool := existsb (Z.eqb n) (visited st).

Section Model.
Variable fl_sub1 : Z -> Z.
Variable fl_mul : Z -> Z -> Z.
Variable pop : heap -> option ((props * Z) * heap).

(** Add for PathProperties, mod.rs 312-321. The latency sum panics on overflow (debug builds). *)
Definition padd (a b : props) : option props :=
  do l <- u64_checked_add (latency a) (latency b);
  Some (Props l (fl_sub1 (fl_mul (fl_sub1 (loss a)) (fl_sub1 (loss b))))).

(** The body of dijkstra's loop over the edges of the popped node. *)
Definition relax (s : props) (st : dstate) (e : Z * props) : option dstate :=
  let (next, w) := e in
  if is_visited st next then Some st
  else
    do ns <- padd s w;
    match get next (scores st) with
    | Some old =>
        if plt ns old then
          Some (DState (visited st) (put next ns (scores st)) ((ns, next) :: visit_next st))
        else Some st
    | None => Some (DState (visited st) (put next ns (scores st)) ((ns, next) :: visit_next st))
    end.

Fixpoint relax_all (s : props) (st : dstate) (es : list (Z * props)) : option dstate :=
  match es with
  | [] => Some st
  | e :: r => do st' <- relax s st e; relax_all s st' r
  end.

(** dijkstra's main loop. *)
Fixpoint dloop (fuel : nat) (g : graph) (st : dstate) : dres :=
  match fuel with
  | O => D_fuel
  | S f =>
      match pop (visit_next st) with
      | None => D_scores (scores st)
      | Some ((s, n), rest) =>
          let st1 := DState (visited st) (scores st) rest in
          if is_visited st1 n then dloop f g st1
          else
            match relax_all s st1 (edges_at g n) with
            | None => D_panic
            | Some st2 => dloop f g (DState (n :: visited st2) (scores st2) (visit_next st2))
            end
      end
  end.

Definition dinit (start : Z) : dstate :=
  DState [] (put start pdefault []) [(pdefault, start)].

(** Every edge is relaxed at most once, or twice in an undirected graph. *)
Definition dfuel (g : graph) : nat :=
  2 + length (flat_map (edges_at g) (node_list g)).

Definition dijkstra (g : graph) (start : Z) : dres := dloop (dfuel g) g (dinit start).

(** The flat_map of compute_shortest_paths, mod.rs 188-206 (executed in parallel in the code; the
    maps of different sources have different keys). Running out of fuel is a panic here; see
    [dijkstra_fuel]. *)
Fixpoint all_paths (g : graph) (nodes srcs : list Z) : option (fmap (Z * Z) props) :=
  match srcs with
  | [] => Some []
  | s :: r =>
      match dijkstra g s with
      | D_scores m =>
          do rest <- all_paths g nodes r;
          Some (map (fun p => ((s, fst p), snd p))
                    (filter (fun p => existsb (Z.eqb (fst p)) nodes) m) ++ rest)
      | _ => None
      end
  end.

(** The loop over the nodes, mod.rs 208-215. *)
Fixpoint self_paths (g : graph) (ns : list Z) (paths : fmap (Z * Z) props)
  : option (gres (fmap (Z * Z) props)) :=
  match ns with
  | [] => Some (G_ok paths)
  | n :: r =>
      do p <- get (n, n) paths;
      check (peq p pdefault);
      match get_edge_weight g n n with
      | G_err => Some G_err
      | G_ok w => self_paths g r (put (n, n) w paths)
      end
  end.

(** NetworkGraph::compute_shortest_paths, mod.rs 181-226 *)
Definition compute_shortest_paths (g : graph) (nodes : list Z)
  : option (gres (fmap (Z * Z) props)) :=
  do paths <- all_paths g nodes nodes;
  do r <- self_paths g nodes paths;
  match r with
  | G_err => Some G_err
  | G_ok paths' =>
      check (Nat.eqb (length paths') (length nodes * length nodes));
      Some (G_ok paths')
  end.
End Model.

(** NetworkGraph::get_direct_paths, mod.rs 228-249 *)
Fixpoint direct_loop (g : graph) (prs : list (Z * Z)) : gres (fmap (Z * Z) props) :=
  match prs with
  | [] => G_ok []
  | (a, b) :: r =>
      match get_edge_weight g a b with
      | G_err => G_err
      | G_ok w =>
          match direct_loop g r with
          | G_err => G_err
          | G_ok m => G_ok (put (a, b) w m)
          end
      end
  end.
Definition get_direct_paths (g : graph) (nodes : list Z) : option (gres (fmap (Z * Z) props)) :=
  match direct_loop g (list_prod nodes nodes) with
  | G_err => Some G_err
  | G_ok m =>
      check (Nat.eqb (length m) (length nodes * length nodes));
      Some (G_ok m)
  end.

(** RoutingInfo::path, mod.rs 442-445 *)
Definition ri_path (paths : fmap (Z * Z) props) (a b : Z) : option props := get (a, b) paths.

(** RoutingInfo::get_smallest_latency_ns, mod.rs 472-474 *)
Definition smallest_latency (paths : fmap (Z * Z) props) : option Z :=
  match map (fun p => latency (snd p)) paths with
  | [] => None
  | x :: r => Some (fold_left Z.min r x)
  end.
