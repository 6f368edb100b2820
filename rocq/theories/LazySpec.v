(** What C58 speaks of: counting labels of a run, and threads inside of force. *)
From Verif Require Import Base LazyModel.

Definition is_call (i : nat) (l : lab) : bool := match l with Call k => Nat.eqb k i | _ => false end.
Definition is_work (i : nat) (l : lab) : bool := match l with Work k => Nat.eqb k i | _ => false end.
Definition is_spurious (i : nat) (l : lab) : bool := match l with Spurious k => Nat.eqb k i | _ => false end.
Definition count (f : lab -> bool) (ls : list lab) : nat := length (filter f ls).

(** The thread has called force and has no reference yet. *)
Definition inside (p : lpc) : Prop := match p with LOut | LRef | LDead => False | _ => True end.
(** The thread can go on by itself. *)
Definition can_work (s : lazy) (i : nat) : Prop := exists t, step s (Work i) t.
Definition initializes (p : lpc) : Prop := match p with LProduce | LPublish => True | _ => False end.
