(** What a user expects of descriptor numbers, over a plain map from numbers to descriptors. *)
From Coq Require Import Sorting.Sorted.
From Verif Require Import Base DescTableModel.

Section Spec.
Context {D : Type}.
Definition contents := Z -> option D.
Definition nothing : contents := fun _ => None.
Definition used (T : contents) (n : Z) : Prop := T n <> None.
Definition number (n : Z) : Prop := 0 <= n <= 2147483647.

(** The numbers passed by the program are within range. *)
Definition in_range (o : dop D) : Prop :=
  match o with Open _ m => number m | DupTo _ k => number k | Close k => number k | _ => True end.

(** The effect of an operation with a given result: only the named numbers change. *)
Definition effect (T : contents) (o : dop D) (x : dres D) : contents := fun n =>
  match o, x with
  | Open d _, Opened k => if n =? k then Some d else T n
  | DupTo d k, _ => if n =? k then Some d else T n
  | Close k, _ => if n =? k then None else T n
  | CloseRange a b, _ => if (a <=? n) && (n <=? b) then None else T n
  | CloseAll, _ => None
  | _, _ => T n
  end.
Fixpoint after (T : contents) (l : list (dop D)) (xs : list (dres D)) : contents :=
  match l, xs with o :: r, x :: s => after (effect T o x) r s | _, _ => T end.

(** [P] holds of every operation of a history, in the state it meets. *)
Fixpoint all_steps (P : contents -> dop D -> dres D -> Prop) (T : contents) (l : list (dop D)) (xs : list (dres D)) : Prop :=
  match l, xs with
  | [], [] => True
  | o :: r, x :: s => P T o x /\ all_steps P (effect T o x) r s
  | _, _ => False
  end.

(** [l] lists, in increasing order of number, the descriptors whose numbers satisfy [P]. *)
Definition listing (T : contents) (P : Z -> Prop) (l : list D) : Prop :=
  exists ns, StronglySorted Z.lt ns /\ (forall n, In n ns <-> P n /\ used T n) /\ map T ns = map Some l.

(** The right results. [Full] is returned exactly when every number from the minimum up is in use. *)
Definition right_result (T : contents) (o : dop D) (x : dres D) : Prop :=
  match o, x with
  | Open _ m, Opened n => m <= n /\ number n /\ ~ used T n
  | Open d m, Full d' => d' = d /\ forall n, m <= n -> number n -> used T n
  | DupTo _ k, Replaced p => p = T k
  | Close k, Closed p => p = T k
  | CloseRange a b, Removed l => listing T (fun n => a <= n <= b) l
  | CloseAll, Removed l => listing T (fun _ => True) l
  | _, _ => False
  end.

Definition lowest (T : contents) (m n : Z) : Prop := forall k, m <= k < n -> used T k.
Definition lowest_result (T : contents) (o : dop D) (x : dres D) : Prop :=
  match o, x with Open _ m, Opened n => lowest T m n | _, _ => True end.

(** Operations that keep to numbers at or just above those in use: minimum at most one more than a
    number in use, replacement at or below a number in use, closing only what is open. *)
Definition compact_op (T : contents) (o : dop D) (_ : dres D) : Prop :=
  match o with
  | Open _ m => m = 0 \/ exists u, used T u /\ m <= u + 1
  | DupTo _ k => exists u, used T u /\ k <= u
  | Close k => used T k
  | _ => True
  end.

(** Closed at some time in a history: named by a close, or within a range-close. *)
Definition ever_closed (l : list (dop D)) (n : Z) : Prop :=
  In (Close n) l \/ exists a b, In (CloseRange a b) l /\ a <= n <= b.
End Spec.
Arguments contents : clear implicits.
