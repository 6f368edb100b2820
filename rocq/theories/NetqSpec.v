(** Specification of the socket queue: the queued items with their priorities, oldest first. *)
From Verif Require Import Base NetqModel.

Definition aqueue := list (Z * Z).

(** [pre ++ x :: post] gives up [x] next: the oldest, or the oldest of those with the least priority. *)
Definition next_is (k : kind) (pre : aqueue) (x : Z * Z) (post : aqueue) : Prop :=
  match k with
  | FirstInFirstOut => pre = []
  | MinPriority => (forall y, In y pre -> snd x < snd y) /\ (forall y, In y post -> snd x <= snd y)
  end.

Definition pri_of (p : option Z) : Z := match p with Some x => x | None => 0 end.
Definition items (l : aqueue) : list Z := map fst l.

Inductive spec_step (k : kind) (l : aqueue) : nop -> nres -> aqueue -> Prop :=
| STryDup i p : In i (items l) -> spec_step k l (NTryPush i p) (RTry (Some AlreadyQueued)) l
| STryNew i p : ~ In i (items l) -> (k = MinPriority -> p <> None) -> spec_step k l (NTryPush i p) (RTry None) (l ++ [(i, pri_of p)])
| SPush i p : ~ In i (items l) -> (k = MinPriority -> p <> None) -> spec_step k l (NPush i p) RUnit (l ++ [(i, pri_of p)])
| SPopNone : l = [] -> spec_step k l NPop (RPop None) l
| SPop pre x post : l = pre ++ x :: post -> next_is k pre x post -> spec_step k l NPop (RPop (Some (fst x))) (pre ++ post)
| SClear : spec_step k l NClear RUnit []
| SContains i b : (b = true <-> In i (items l)) -> spec_step k l (NContains i) (RBool b) l
| SLen : spec_step k l NLen (RLen (Z.of_nat (length l))) l
| SEmpty b : (b = true <-> l = []) -> spec_step k l NIsEmpty (RBool b) l.

Inductive spec_run (k : kind) : aqueue -> list nop -> list nres -> aqueue -> Prop :=
| SRNil l : spec_run k l [] [] l
| SRCons l l1 l2 o r ops rs : spec_step k l o r l1 -> spec_run k l1 ops rs l2 -> spec_run k l (o :: ops) (r :: rs) l2.

(** Callers give priorities to a priority queue. *)
Definition gives_priority (k : kind) (o : nop) : Prop :=
  match o with
  | NTryPush _ p | NPush _ p => k = MinPriority -> p <> None
  | _ => True
  end.

(** Items queued and items returned by a history. *)
Fixpoint queued (ops : list nop) (rs : list nres) : list Z :=
  match ops, rs with
  | NTryPush i _ :: o, RTry None :: r => i :: queued o r
  | NPush i _ :: o, _ :: r => i :: queued o r
  | _ :: o, _ :: r => queued o r
  | _, _ => []
  end.
Fixpoint returned (rs : list nres) : list Z :=
  match rs with
  | RPop (Some i) :: r => i :: returned r
  | _ :: r => returned r
  | [] => []
  end.
