(** What C59 speaks of: a map, and what each observation must be, given those before. *)
From Verif Require Import Base TlsModel.

(** The map after the observations (newest first). *)
Fixpoint content (es : list ev) : nat -> option Z :=
  match es with
  | [] => fun _ => None
  | EInsert k v :: es => fun x => if Nat.eqb x k then Some v else content es x
  | ERemove k _ :: es => fun x => if Nat.eqb x k then None else content es x
  | EForget :: _ => fun _ => None
  | _ :: es => content es
  end.

Definition answer (o : option Z) : res := match o with None => Absent | Some v => Found (Some v) end.

(** Every observation is what the map says: lookups and removals return the value of the key, only absent keys are
    inserted, and a reference still reads the value of its key. *)
Fixpoint explained (es : list ev) : Prop :=
  match es with
  | [] => True
  | EGet k r :: es => r = answer (content es k) /\ explained es
  | EInsert k v :: es => content es k = None /\ explained es
  | ERead k v :: es => (exists z, v = Some z /\ content es k = Some z) /\ explained es
  | ERemove k r :: es => r = answer (content es k) /\ explained es
  | EForget :: es => explained es
  end.

Definition is_take (l : lab) : bool := match l with Take _ => true | _ => false end.
Definition is_init (i : nat) (l : lab) : bool := match l with Init t _ => Nat.eqb t i | _ => false end.
Definition is_begin (i : nat) (l : lab) : bool := match l with Begin t _ _ => Nat.eqb t i | _ => false end.
Definition is_work (i : nat) (l : lab) : bool := match l with Look t | Init t _ | Miss t | Take t | Fill t | Free t => Nat.eqb t i | _ => false end.
Definition count (f : lab -> bool) (ls : list lab) : nat := length (filter f ls).
(** How many references of the list are to the slot. *)
Definition to_slot (q : nat) (l : list (nat * nat)) : nat := length (filter (fun x => Nat.eqb (fst x) q) l).

(** A run all of whose states satisfy [P]. *)
Inductive always (P : tls -> Prop) (s : tls) : list lab -> tls -> Prop :=
| Always_nil : P s -> always P s [] s
| Always_cons l t ls u : P s -> step s l t -> always P t ls u -> always P s (l :: ls) u.

(** The thread is in a call. *)
Definition in_call (p : tpc) : Prop := match p with TIdle | TFull | TStillUsed | TUnderflow => False | _ => True end.
