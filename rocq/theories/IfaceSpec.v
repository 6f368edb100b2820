(** Specifications of the network interface: who may send next, and who receives a packet. *)
From Verif Require Import Base NetqModel IfaceModel.

(* ------------------------------------------------------------------ sending *)
(** One global first-in-first-out queue of packets. *)
Fixpoint fifo (l : list packet) (ops : list iop) : list (option packet) :=
  match ops with
  | [] => []
  | ISend p :: r => fifo (l ++ [p]) r
  | IPop :: r => match l with [] => None :: fifo [] r | x :: l' => Some x :: fifo l' r end
  | IDiscard s :: r => fifo (filter (fun p => negb (k_sock p =? s)) l) r
  end.

(** One first-in-first-out queue per socket; a pop takes the head of one of them and only fails
    when all are empty. *)
Definition set_q (f : Z -> list packet) (s : Z) (l : list packet) : Z -> list packet := fun x => if x =? s then l else f x.
Inductive fair_step (f : Z -> list packet) : iop -> list (option packet) -> (Z -> list packet) -> Prop :=
| FSend p : fair_step f (ISend p) [] (set_q f (k_sock p) (f (k_sock p) ++ [p]))
| FPop s p r : f s = p :: r -> fair_step f IPop [Some p] (set_q f s r)
| FNone : (forall s, f s = []) -> fair_step f IPop [None] f
| FDiscard s : fair_step f (IDiscard s) [] (set_q f s []).
Inductive fair_run : (Z -> list packet) -> list iop -> list (option packet) -> (Z -> list packet) -> Prop :=
| FNil f g : (forall s, f s = g s) -> fair_run f [] [] g
| FCons f g h o a ops b : fair_step f o a g -> fair_run g ops b h -> fair_run f (o :: ops) (a ++ b) h.

Definition sends (ops : list iop) : list packet := flat_map (fun o => match o with ISend p => [p] | _ => [] end) ops.
Definition discards (ops : list iop) : list Z := flat_map (fun o => match o with IDiscard s => [s] | _ => [] end) ops.
(** Priorities come from a counter. *)
Definition rising (l : list packet) : Prop := StronglySorted (fun a b => k_pri a < k_pri b) l.
(** How many of the packets returned came from socket [s]. *)
Definition from (s : Z) (outs : list (option packet)) : Z :=
  Z.of_nat (length (filter (fun o => match o with Some p => k_sock p =? s | None => false end) outs)).
(** Number of packets socket [s] still has after a history. *)
Fixpoint waiting (s : Z) (n : Z) (ops : list iop) (outs : list (option packet)) : list Z :=
  match ops with
  | [] => [n]
  | ISend p :: r => n :: waiting s (if k_sock p =? s then n + 1 else n) r outs
  | IDiscard t :: r => n :: waiting s (if t =? s then 0 else n) r outs
  | IPop :: r => n :: match outs with
      | Some p :: os => waiting s (if k_sock p =? s then n - 1 else n) r os
      | _ :: os => waiting s n r os
      | [] => []
      end
  end.

(* ------------------------------------------------------------------ receiving *)
(** Does binding to [ip] cover interface [w], on a host whose public address is [pub]? *)
Definition loopback (ip : Z) : Prop := 127 * 16777216 <= ip < 128 * 16777216.
Definition covers (pub : Z) (w : which) (ip : Z) : Prop :=
  ip = 0 \/ match w with Lo => loopback ip | Inet => ip = pub /\ ~ loopback ip end.
Definition coversb (pub : Z) (w : which) (ip : Z) : bool :=
  (ip =? 0) || match w with
               | Lo => (127 * 16777216 <=? ip) && (ip <? 128 * 16777216)
               | Inet => (ip =? pub) && negb ((127 * 16777216 <=? ip) && (ip <? 128 * 16777216))
               end.
Definition same_addr (a b : addr) : bool := (fst a =? fst b) && (snd a =? snd b).
(** The socket that holds (protocol, port, peer) on interface [w] after a history given newest
    first: whoever associated first since the last disassociation. *)
Fixpoint holder (pub : Z) (w : which) (proto port : Z) (peer : addr) (hist : list nsop) : option Z :=
  match hist with
  | [] => None
  | NsAssoc s p b r :: old =>
      match holder pub w proto port peer old with
      | Some x => Some x
      | None => if (p =? proto) && coversb pub w (fst b) && (snd b =? port) && same_addr r peer then Some s else None
      end
  | NsDis p b r :: old =>
      if (p =? proto) && coversb pub w (fst b) && (snd b =? port) && same_addr r peer then None
      else holder pub w proto port peer old
  | NsCleanup :: _ => None
  end.
(** Who gets a packet. *)
Definition receiver (pub : Z) (w : which) (proto port : Z) (src : addr) (hist : list nsop) : option Z :=
  match holder pub w proto port src hist with
  | Some s => Some s
  | None => holder pub w proto port (0, 0) hist
  end.
(** Nothing holds the binding yet. *)
Definition vacant (pub proto : Z) (bind peer : addr) (hist : list nsop) : Prop :=
  forall w, covers pub w (fst bind) -> holder pub w proto (snd bind) peer hist = None.

(** Ports: no packet from [peer] (or from an unknown sender) to this port of any interface [ip]
    denotes reaches a socket. *)
Definition port_range (p : Z) : Prop := 10000 <= p <= 65535.
Definition port_free (pub proto ip : Z) (peer : addr) (hist : list nsop) (port : Z) : Prop :=
  (exists w, covers pub w ip) /\ forall w, covers pub w ip -> receiver pub w proto port peer hist = None.
