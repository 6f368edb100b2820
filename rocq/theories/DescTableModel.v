(** The descriptor table: which numbers refer to which open descriptors.
    /repo/src/main/host/descriptor/descriptor_table.rs *)
From Verif Require Import Base FMap BTree.

Section DescTable.
(** A descriptor: an opaque value here. *)
Context {D : Type}.

(** descriptor_table.rs:13 [FD_MAX = i32::MAX] *)
Definition FD_MAX : Z := 2147483647.

(** descriptor_table.rs:18-29 [struct DescriptorTable]; the object counter is left out. *)
Record table : Type := {
  descriptors : fmap Z D;
  available : list Z;
  next_index : Z }.

(** descriptor_table.rs:32-39 [DescriptorTable::new] *)
Definition table_new : table := {| descriptors := []; available := []; next_index := 0 |}.

(** descriptor_table.rs:277-283 [DescriptorHandle::new], unwrapped at 70 and 95. *)
Definition handle (i : Z) : option Z := if FD_MAX <? i then None else Some i.

(** descriptor_table.rs:67-82, the search loop: [Some None] is the error return. Running out of fuel
    counts as a panic, and so do the unwraps. *)
Fixpoint skip_used (fuel : nat) (ds : fmap Z D) (idx : Z) : option (option Z) :=
  match fuel with
  | O => None
  | S n =>
      do h <- handle idx;
      if mem h ds then if FD_MAX <=? idx then Some None else skip_used n ds (idx + 1)
      else Some (Some idx)
  end.

(** descriptor_table.rs:43-101 [add] *)
Definition add (t : table) (d : D) (min : Z) : option (table * (Z + D)) :=
  do t_idx <-
    match first_from min (available t) with
    | Some idx => Some ({| descriptors := descriptors t; available := sdel idx (available t); next_index := next_index t |}, Some idx)
    | None =>
        let idx := Z.max (next_index t) min in
        if FD_MAX <? idx then Some (t, None)
        else
          do found <- skip_used (S (length (descriptors t))) (descriptors t) idx;
          match found with
          | None => Some (t, None)
          | Some j =>
              Some ({| descriptors := descriptors t; available := available t;
                       next_index := if idx =? next_index t then j + 1 else next_index t |}, Some j)
          end
    end;
  match t_idx with
  | (t1, None) => Some (t1, inr d)
  | (t1, Some idx) =>
      do h <- handle idx;
      check (negb (mem h (descriptors t1)));
      Some ({| descriptors := bput h d (descriptors t1); available := available t1; next_index := next_index t1 |}, inl h)
  end.

(** descriptor_table.rs:105-116 [trim_tail] *)
Fixpoint trim (fuel : nat) (av : list Z) (next : Z) : option (list Z * Z) :=
  match last_opt av with
  | None => Some (av, next)
  | Some l =>
      if l + 1 =? next then
        match fuel with O => None | S n => trim n (sdel l av) (next - 1) end
      else Some (av, next)
  end.
Definition trim_tail (t : table) : option table :=
  do an <- trim (length (available t)) (available t) (next_index t);
  Some {| descriptors := descriptors t; available := fst an; next_index := snd an |}.

(** descriptor_table.rs:131-147 [set], called by 177-183 [register_descriptor_with_fd] *)
Definition set_at (t : table) (i : Z) (d : D) : table * option D :=
  ({| descriptors := bput i d (descriptors t); available := sdel i (available t); next_index := next_index t |},
   get i (descriptors t)).

(** descriptor_table.rs:187-192 [deregister_descriptor] *)
Definition deregister (t : table) (i : Z) : option (table * option D) :=
  do t' <- trim_tail {| descriptors := del i (descriptors t); available := sins i (available t); next_index := next_index t |};
  Some (t', get i (descriptors t)).

(** descriptor_table.rs:195-203 [remove_all] *)
Definition remove_all (t : table) : table * list D := (table_new, map snd (descriptors t)).

(** descriptor_table.rs:207-226 [remove_range] *)
Fixpoint deregister_list (t : table) (l : list Z) : option (table * list D) :=
  match l with
  | [] => Some (t, [])
  | i :: r =>
      do x <- deregister t i;
      do d <- snd x;
      do y <- deregister_list (fst x) r;
      Some (fst y, d :: snd y)
  end.
Definition remove_range (t : table) (a b : Z) : option (table * list D) :=
  deregister_list t (filter (fun i => (a <=? i) && (i <=? b)) (keys (descriptors t))).

(** What system calls do to the table: open, socket, pipe, dup and fcntl(F_DUPFD) allocate; dup2 and
    dup3 replace; close, close_range and exit remove. (syscall/handler/unistd.rs:36-170, fcntl.rs:149-167,
    close_range.rs:16-83) *)
Inductive dop : Type :=
| Open (d : D) (min : Z)
| DupTo (d : D) (fd : Z)
| Close (fd : Z)
| CloseRange (a b : Z)
| CloseAll.
Inductive dres : Type :=
| Opened (fd : Z)
| Full (d : D)
| Replaced (prev : option D)
| Closed (prev : option D)
| Removed (ds : list D).

Definition dstep (t : table) (o : dop) : option (table * dres) :=
  match o with
  | Open d m => do x <- add t d m; Some (fst x, match snd x with inl fd => Opened fd | inr d => Full d end)
  | DupTo d fd => let x := set_at t fd d in Some (fst x, Replaced (snd x))
  | Close fd => do x <- deregister t fd; Some (fst x, Closed (snd x))
  | CloseRange a b => do x <- remove_range t a b; Some (fst x, Removed (snd x))
  | CloseAll => let x := remove_all t in Some (fst x, Removed (snd x))
  end.
Fixpoint drun (t : table) (l : list dop) : option (table * list dres) :=
  match l with
  | [] => Some (t, [])
  | o :: r => do x <- dstep t o; do y <- drun (fst x) r; Some (fst y, snd x :: snd y)
  end.
End DescTable.
Arguments table : clear implicits.
Arguments dop : clear implicits.
Arguments dres : clear implicits.
