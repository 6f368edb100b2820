(** The documented order of events, stated without reference to the comparison functions. *)
From Verif Require Import Base EventModel.

Section Spec.
Context {K T : Type}.
Notation event := (event K T).

(** [before a b]: [a] must leave the queue before [b]. *)
Inductive before : event -> event -> Prop :=
| before_time a b : ev_time a < ev_time b -> before a b
| before_kind a b s i k j t : ev_time a = ev_time b ->
    ev_data a = EPacket s i k -> ev_data b = ELocal j t -> before a b
| before_src a b s1 i1 k1 s2 i2 k2 : ev_time a = ev_time b ->
    ev_data a = EPacket s1 i1 k1 -> ev_data b = EPacket s2 i2 k2 -> (s1 < s2)%nat -> before a b
| before_pid a b s i1 k1 i2 k2 : ev_time a = ev_time b ->
    ev_data a = EPacket s i1 k1 -> ev_data b = EPacket s i2 k2 -> i1 < i2 -> before a b
| before_lid a b i1 t1 i2 t2 : ev_time a = ev_time b ->
    ev_data a = ELocal i1 t1 -> ev_data b = ELocal i2 t2 -> i1 < i2 -> before a b.

(** Identity of an event: what the simulator allots to be unique on one host. *)
Inductive ident := IPacket (src : nat) (id : Z) | ILocal (id : Z).
Definition ident_of (e : event) : ident :=
  match ev_data e with EPacket s i _ => IPacket s i | ELocal i _ => ILocal i end.
Definition distinct (l : list event) : Prop := NoDup (map ident_of l).

(** History bookkeeping, independent of the queue model. *)
Fixpoint pushed (ops : list (qop K T)) : list event :=
  match ops with [] => [] | QPush e :: r => e :: pushed r | QPop :: r => pushed r end.
Fixpoint popped (res : list (option event)) : list event :=
  match res with [] => [] | Some e :: r => e :: popped r | None :: r => popped r end.

(** Reference semantics of a history: the pending events are kept in a list; a pop returns the event
    that is [before] all other pending ones, or nothing if there is none pending. *)
Inductive ref_run : list event -> list (qop K T) -> list (option event) -> list event -> Prop :=
| ref_nil l : ref_run l [] [] l
| ref_push l e ops res l' : ref_run (l ++ [e]) ops res l' -> ref_run l (QPush e :: ops) res l'
| ref_pop_empty ops res l' : ref_run [] ops res l' -> ref_run [] (QPop :: ops) (None :: res) l'
| ref_pop l1 e l2 ops res l' : (forall x, In x (l1 ++ l2) -> before e x) ->
    ref_run (l1 ++ l2) ops res l' -> ref_run (l1 ++ e :: l2) (QPop :: ops) (Some e :: res) l'.

(** Pushes never lie in the past of what was already popped. *)
Fixpoint no_past (last : Z) (ops : list (qop K T)) (res : list (option event)) : Prop :=
  match ops with
  | [] => True
  | QPush e :: r => last <= ev_time e /\ no_past last r res
  | QPop :: r => match res with
                 | Some e :: res' => no_past (ev_time e) r res'
                 | None :: res' => no_past last r res'
                 | [] => True
                 end
  end.
End Spec.
