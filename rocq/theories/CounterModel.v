(** Model of src/main/utility/counter.rs (all but the C bindings, text formatting and serde).
    A HashMap<String, i64> is a finite map; its iteration order is an arbitrary permutation. [None] is a
    panic: a failed assertion, or an i64 overflow (a panic in builds with overflow checks; without
    them the value wraps, which is not modelled). *)
From Coq Require Import String.
From Verif Require Import Base FMap.

Notation counter := (fmap string Z).

Definition I64_MIN : Z := -9223372036854775808.
Definition I64_MAX : Z := 9223372036854775807.
Definition in_i64 (x : Z) : bool := (I64_MIN <=? x) && (x <=? I64_MAX).

(* counter.rs:30-34 *)
Inductive cop := CAdd | CSub | CSet.

(* counter.rs:39-43 *)
Definition counter_new : counter := [].

(* counter.rs:102-107 *)
Definition c_apply (op : cop) (val value : Z) : option Z :=
  match op with
  | CAdd => check (in_i64 (val + value)); Some (val + value)
  | CSub => check (in_i64 (val - value)); Some (val - value)
  | CSet => Some value
  end.

(* counter.rs:100-115: the branch for a key that is present *)
Definition operate_present (c : counter) (id : string) (op : cop) (value : Z) : option (counter * Z) :=
  do val <- get id c;
  do v <- c_apply op val value;
  let c := put id v c in
  if v =? 0
  then check (match get id c with Some r => r =? 0 | None => false end); Some (del id c, 0)
  else Some (c, v).

(* counter.rs:98-123 *)
Definition operate (c : counter) (id : string) (op : cop) (value : Z) : option (counter * Z) :=
  match get id c with
  | Some _ => operate_present c id op value
  | None =>
      (* insert returns the previous value *)
      check (match get id c with None => true | Some _ => false end);
      operate_present (put id 0 c) id op value
  end.

(* counter.rs:45-75 *)
Definition add_one c id := operate c id CAdd 1.
Definition sub_one c id := operate c id CSub 1.
Definition add_value c id v := operate c id CAdd v.
Definition sub_value c id v := operate c id CSub v.
Definition set_value c id v := operate c id CSet v.

(* counter.rs:77-82 *)
Definition get_value (c : counter) (id : string) : Z :=
  match get id c with Some v => v | None => 0 end.

(* counter.rs:84-96; [it]: the other counter's items in iteration order *)
Fixpoint add_items (c : counter) (it : list (string * Z)) : option counter :=
  match it with
  | [] => Some c
  | (k, v) :: r => do (c', _) <- add_value c k v; add_items c' r
  end.
Fixpoint sub_items (c : counter) (it : list (string * Z)) : option counter :=
  match it with
  | [] => Some c
  | (k, v) :: r => do (c', _) <- sub_value c k v; sub_items c' r
  end.

(* derived PartialEq for a HashMap: same size, and every item of one is in the other *)
Definition counter_eqb (a b : counter) : bool :=
  Nat.eqb (length a) (length b) &&
  forallb (fun p => match get (fst p) b with Some v => v =? snd p | None => false end) a.

(* counter.rs:127-145; [it]: the items in iteration order; sort_by as an insertion sort *)
Definition display_le (a b : string * Z) : bool :=
  match Z.compare (snd a) (snd b) with
  | Lt => false
  | Gt => true
  | Eq => match String.compare (fst a) (fst b) with Gt => false | _ => true end
  end.
Fixpoint sort_insert (x : string * Z) (l : list (string * Z)) : list (string * Z) :=
  match l with
  | [] => [x]
  | y :: r => if display_le x y then x :: l else y :: sort_insert x r
  end.
Definition sorted_for_display (it : list (string * Z)) : list (string * Z) := fold_right sort_insert [] it.

(** Histories: how a counter came about. *)
Inductive chist :=
| HNew
| HOp (h : chist) (id : string) (op : cop) (v : Z)
| HAddCounter (h other : chist)
| HSubCounter (h other : chist).

Inductive cexec : chist -> option counter -> Prop :=
| XNew : cexec HNew (Some counter_new)
| XOp h id op v c : cexec h (Some c) -> cexec (HOp h id op v) (do (c', _) <- operate c id op v; Some c')
| XOpP h id op v : cexec h None -> cexec (HOp h id op v) None
| XAdd h o c co it : cexec h (Some c) -> cexec o (Some co) -> Permutation it co ->
    cexec (HAddCounter h o) (add_items c it)
| XAddP h o : cexec h None \/ cexec o None -> cexec (HAddCounter h o) None
| XSub h o c co it : cexec h (Some c) -> cexec o (Some co) -> Permutation it co ->
    cexec (HSubCounter h o) (sub_items c it)
| XSubP h o : cexec h None \/ cexec o None -> cexec (HSubCounter h o) None.
