(** Routes (C16). *)
From Verif Require Import Base FMap GraphModel GraphSpec GraphProofs.

(** Between two different nodes in use the table holds the properties of an actual walk, no walk
    has a smaller latency, and among the walks of that latency none has a smaller loss. Holds for
    every monotone rounding of losses and every choice among equal queue entries. *)
Theorem C16_shortest one sub1 mul pop g nodes r :
  float_ok one sub1 mul -> heap_ok pop -> graph_ok one g -> nodes_ok g nodes ->
  compute_shortest_paths sub1 mul pop g nodes = Some (G_ok r) ->
  forall a b, In a nodes -> In b nodes -> a <> b ->
  exists p l, ri_path r a b = Some p /\ walk g a b l /\
    latency p = walk_latency l /\ loss p = walk_loss sub1 mul l /\
    (forall l', walk g a b l' -> latency p <= walk_latency l' /\
       (walk_latency l' = latency p -> loss p <= walk_loss sub1 mul l')).
Proof. exact (shortest one sub1 mul pop g nodes r). Qed.
Print Assumptions C16_shortest.

(** A node's path to itself is its only self-loop. *)
Theorem C16_self_loop one sub1 mul pop g nodes r :
  float_ok one sub1 mul -> heap_ok pop -> graph_ok one g -> nodes_ok g nodes ->
  compute_shortest_paths sub1 mul pop g nodes = Some (G_ok r) ->
  forall n, In n nodes -> exists e, links g n n = [e] /\ ri_path r n n = Some (e_w e).
Proof. exact (self_loop one sub1 mul pop g nodes r). Qed.
Print Assumptions C16_self_loop.

(** In an undirected graph latencies are the same both ways. *)
Theorem C16_symmetric one sub1 mul pop g nodes r :
  float_ok one sub1 mul -> heap_ok pop -> graph_ok one g -> nodes_ok g nodes -> directed g = false ->
  compute_shortest_paths sub1 mul pop g nodes = Some (G_ok r) ->
  forall a b, In a nodes -> In b nodes ->
  exists p q, ri_path r a b = Some p /\ ri_path r b a = Some q /\ latency p = latency q.
Proof. exact (symmetric one sub1 mul pop g nodes r). Qed.
Print Assumptions C16_symmetric.

(** When the table is built: an error exactly when a node in use does not have one self-loop;
    otherwise a table if all nodes in use reach each other, and a panic if not. *)
Theorem C16_outcome one sub1 mul pop g nodes :
  float_ok one sub1 mul -> heap_ok pop -> graph_ok one g -> nodes_ok g nodes -> small g ->
  (compute_shortest_paths sub1 mul pop g nodes = Some G_err /\
     exists n, In n nodes /\ length (links g n n) <> 1%nat) \/
  ((forall n, In n nodes -> length (links g n n) = 1%nat) /\
     ((exists r, compute_shortest_paths sub1 mul pop g nodes = Some (G_ok r)) /\
        (forall a b, In a nodes -> In b nodes -> exists l, walk g a b l) \/
      (compute_shortest_paths sub1 mul pop g nodes = None /\
        exists a b, In a nodes /\ In b nodes /\ forall l, ~ walk g a b l))).
Proof. intros A B C D E. exact (routes_cases one sub1 mul pop A B g C nodes D E). Qed.
Print Assumptions C16_outcome.

(** Without shortest paths: the table holds the only link between each two nodes, or building it
    fails because some pair does not have exactly one link; it never panics. *)
Theorem C16_direct g nodes : NoDup nodes ->
  match get_direct_paths g nodes with
  | Some (G_ok r) => forall a b, In a nodes -> In b nodes ->
      exists e, links g a b = [e] /\ ri_path r a b = Some (e_w e)
  | Some G_err => exists a b, In a nodes /\ In b nodes /\ length (links g a b) <> 1%nat
  | None => False
  end.
Proof. exact (direct_ok g nodes). Qed.
Print Assumptions C16_direct.

(** The smallest latency, from which the length of the rounds is derived, is a lower bound for all
    routes and is attained. *)
Theorem C16_smallest one sub1 mul pop g nodes r :
  float_ok one sub1 mul -> heap_ok pop -> graph_ok one g -> nodes_ok g nodes ->
  compute_shortest_paths sub1 mul pop g nodes = Some (G_ok r) ->
  match smallest_latency r with
  | None => forall a b, ri_path r a b = None
  | Some m => (forall a b p, ri_path r a b = Some p -> m <= latency p) /\
              exists a b p, ri_path r a b = Some p /\ latency p = m
  end.
Proof. intros A B C D E. exact (smallest_ok r (routes_nodup one sub1 mul pop g nodes r A B C D E)). Qed.
Print Assumptions C16_smallest.

(** Per-mille arithmetic rounding down is an instance. *)
Definition sub1000 (x : Z) : Z := 1000 - x.
Definition mul1000 (x y : Z) : Z := x * y / 1000.
Example float_case : float_ok 1000 sub1000 mul1000.
Proof.
  constructor; unfold sub1000, mul1000; intros; try lia.
  - split; [apply Z.div_pos; nia|]. apply Z.div_le_upper_bound; nia.
  - apply Z.div_le_mono; nia.
Qed.
Example heap_case : heap_ok pop_list.
Proof. exact pop_list_ok. Qed.

(** Two routes of the same latency, a longer direct link, an unused node. *)
Definition square : graph :=
  Graph false 5
    [Edge 0 0 (Props 1 0); Edge 1 1 (Props 2 0); Edge 2 2 (Props 3 0); Edge 3 3 (Props 4 0);
     Edge 0 1 (Props 10 100); Edge 1 3 (Props 20 200); Edge 2 0 (Props 15 0); Edge 2 3 (Props 15 50);
     Edge 0 3 (Props 31 0); Edge 1 4 (Props 1 0)].
Lemma square_ok : graph_ok 1000 square.
Proof. unfold graph_ok, edge_ok, square, U64_MAX. cbn. repeat constructor; cbn; lia. Qed.
Lemma square_nodes : nodes_ok square [0; 1; 3].
Proof.
  split; [repeat constructor; cbn; intuition congruence|].
  intros n [<-|[<-|[<-|[]]]]; cbn; lia.
Qed.
Example C16_case :
  match compute_shortest_paths sub1000 mul1000 pop_list square [0; 1; 3] with
  | Some (G_ok r) => ri_path r 0 3 = Some (Props 30 50) /\ ri_path r 1 3 = Some (Props 20 200) /\
                     ri_path r 3 3 = Some (Props 4 0) /\ ri_path r 0 2 = None /\
                     smallest_latency r = Some 1
  | _ => False
  end.
Proof. vm_compute. auto. Qed.
Example C16_small_case : small square.
Proof.
  exists 31. split; [|vm_compute; discriminate].
  intros e I. cbn in I. repeat destruct I as [<-|I]; try (cbn; lia); try destruct I.
Qed.
Example C16_direct_case :
  match get_direct_paths square [0; 1] with
  | Some (G_ok r) => ri_path r 1 0 = Some (Props 10 100)
  | _ => False
  end /\ get_direct_paths square [1; 2] = Some G_err.
Proof. vm_compute. auto. Qed.

(** Two nodes in use without a route between them are not reported as an error: the table
    construction panics. *)
Theorem C16_unconnected_refuted : exists g nodes,
  graph_ok 1000 g /\ nodes_ok g nodes /\ small g /\
  compute_shortest_paths sub1000 mul1000 pop_list g nodes = None.
Proof.
  exists (Graph true 2 [Edge 0 0 (Props 1 0); Edge 1 1 (Props 1 0); Edge 0 1 (Props 5 0)]), [0; 1].
  split; [unfold graph_ok, edge_ok, U64_MAX; cbn; repeat constructor; cbn; lia|].
  split; [split; [repeat constructor; cbn; intuition congruence|intros n [<-|[<-|[]]]; cbn; lia]|].
  split; [exists 5; split; [|vm_compute; discriminate]|].
  - intros e I. cbn in I. repeat destruct I as [<-|I]; try (cbn; lia); try destruct I.
  - vm_compute. reflexivity.
Qed.
Print Assumptions C16_unconnected_refuted.
