(** Specification of routes: walks in the network graph and their costs. *)
From Verif Require Import Base FMap GraphModel.

(** One hop from [a] to [b] over a link with properties [w]; an undirected link can be used both
    ways. *)
Definition hop (g : graph) (a b : Z) (w : props) : Prop :=
  In (Edge a b w) (edges g) \/ (directed g = false /\ In (Edge b a w) (edges g)).

(** [walk g a b l]: the links [l], in order, lead from [a] to [b]. *)
Inductive walk (g : graph) (a : Z) : Z -> list props -> Prop :=
| walk_here : walk g a a []
| walk_hop : forall b c l w, walk g a b l -> hop g b c w -> walk g a c (l ++ [w]).

(** The total latency of a walk. *)
Definition walk_latency (l : list props) : Z := zsum (map latency l).

(** Single-precision arithmetic on fractions: [one] stands for 1.0. Rounding is monotone. *)
Record float_ok (one : Z) (sub1 : Z -> Z) (mul : Z -> Z -> Z) : Prop := {
  one_pos : 0 < one;
  sub1_range : forall x, 0 <= x <= one -> 0 <= sub1 x <= one;
  sub1_mono : forall x y, 0 <= x -> x <= y -> y <= one -> sub1 y <= sub1 x;
  mul_range : forall x y, 0 <= x <= one -> 0 <= y <= one -> 0 <= mul x y <= one;
  mul_mono : forall x y z, 0 <= x -> x <= y -> y <= one -> 0 <= z <= one -> mul x z <= mul y z
}.

(** The loss of a walk: losses compose as the code rounds them, from the source onwards. *)
Definition walk_loss (sub1 : Z -> Z) (mul : Z -> Z -> Z) (l : list props) : Z :=
  fold_left (fun acc w => sub1 (mul (sub1 acc) (sub1 (loss w)))) l 0.

(** A priority queue: [pop] returns some least entry and the others. *)
Definition heap_ok (pop : heap -> option ((props * Z) * heap)) : Prop :=
  forall h,
    match pop h with
    | None => h = []
    | Some (x, r) => Permutation h (x :: r) /\ forall y, In y h -> plt (fst y) (fst x) = false
    end.

(** What the parser guarantees: endpoints exist, latencies are positive 64-bit numbers, losses
    lie in [0,1] (mod.rs 99-105). *)
Definition edge_ok (one : Z) (n : nat) (e : edge) : Prop :=
  0 <= e_src e < Z.of_nat n /\ 0 <= e_dst e < Z.of_nat n /\
  0 < latency (e_w e) <= U64_MAX /\ 0 <= loss (e_w e) <= one.
Definition graph_ok (one : Z) (g : graph) : Prop := Forall (edge_ok one (count g)) (edges g).

(** The nodes in use: distinct nodes of the graph. *)
Definition nodes_ok (g : graph) (nodes : list Z) : Prop :=
  NoDup nodes /\ forall n, In n nodes -> 0 <= n < Z.of_nat (count g).

(** The links from [a] to [b], counted. *)
Definition links (g : graph) (a b : Z) : list edge :=
  filter (fun e => ((e_src e =? a) && (e_dst e =? b)) ||
                   (negb (directed g) && (e_src e =? b) && (e_dst e =? a))) (edges g).

(** Latencies are small enough for no sum over distinct nodes to overflow. *)
Definition small (g : graph) : Prop :=
  exists m, (forall e, In e (edges g) -> latency (e_w e) <= m) /\
            m * Z.of_nat (count g) <= U64_MAX.

(** A list-based priority queue, for the examples. *)
Fixpoint pop_list (h : heap) : option ((props * Z) * heap) :=
  match h with
  | [] => None
  | x :: r =>
      match pop_list r with
      | None => Some (x, [])
      | Some (y, r') => if plt (fst y) (fst x) then Some (y, x :: r') else Some (x, y :: r')
      end
  end.
