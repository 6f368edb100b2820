(** Model of src/main/utility/interval_map.rs (lines 5-283).
    The three parallel vectors are three lists. usize keys are only compared, so they are plain
    integers. [None] is a panic: the assertion, or an index out of bounds.
    [binary_search] is the standard library's, by its contract on a sorted vector: the position of an
    equal element, or the insertion point. [get_mut]'s mutable reference is not modelled. *)
From Verif Require Import Base.

Section IMap.
Context {V : Type}.

(* interval_map.rs:3 *)
Definition interval : Type := Z * Z.

(* interval_map.rs:6-43 *)
Inductive mutation : Type :=
| ModifiedBegin (i : interval) (b : Z)
| ModifiedEnd (i : interval) (e : Z)
| Split (i i1 i2 : interval)
| Removed (i : interval) (v : V).

(* interval_map.rs:83-88 *)
Record imap : Type := mkIM { im_starts : list Z; im_ends : list Z; im_vals : list V }.

(* interval_map.rs:92-98 *)
Definition im_new : imap := mkIM [] [] [].

(** [inl i]: Ok(i); [inr i]: Err(i) *)
Definition binary_search (l : list Z) (x : Z) : nat + nat :=
  let i := length (filter (fun y => y <? x) l) in
  match nth_error l i with
  | Some y => if y =? x then inl i else inr i
  | None => inr i
  end.

Definition set_nth {A} (l : list A) (i : nat) (a : A) : list A := firstn i l ++ a :: skipn (S i) l.
(** Vec::splice(i..j, ins); panics unless i <= j <= len. Returns the vector and the removed elements. *)
Definition vec_splice {A} (l : list A) (i j : nat) (ins : list A) : option (list A * list A) :=
  check (Nat.leb i j && Nat.leb j (length l));
  Some (firstn i l ++ ins ++ skipn j l, firstn (j - i) (skipn i l)).

(** interval_map.rs:45-63: what an [ItemIter] starting at index [i] yields *)
Definition items_from (m : imap) (i : nat) : list (interval * V) :=
  skipn i (combine (combine (im_starts m) (im_ends m)) (im_vals m)).
(* interval_map.rs:101-103, 64-80 *)
Definition im_keys (m : imap) : list interval := map fst (items_from m 0).
(* interval_map.rs:106-108 *)
Definition im_iter (m : imap) : list (interval * V) := items_from m 0.

(* interval_map.rs:112-119 *)
Definition im_iter_from (m : imap) (begin : Z) : option (list (interval * V)) :=
  do idx <- match binary_search (im_starts m) begin with
            | inl i => Some i
            | inr 0%nat => Some 0%nat
            | inr (S i) => do e <- nth_error (im_ends m) i; Some (if begin <? e then i else S i)
            end;
  Some (items_from m idx).

(* interval_map.rs:140-252 *)
Definition im_splice (m : imap) (start end_ : Z) (val : option V) : option (imap * list mutation) :=
  check (start <? end_);
  let si := match val with Some _ => [start] | None => [] end in
  let ei := match val with Some _ => [end_] | None => [] end in
  let vi := match val with Some v => [v] | None => [] end in
  let splice_start := match binary_search (im_starts m) start with inl i => i | inr i => i end in
  (* 167-201 *)
  do (ends, si, ei, vi, muts) <-
    match splice_start with
    | 0%nat => Some (im_ends m, si, ei, vi, [])
    | S idx =>
        do oend <- nth_error (im_ends m) idx;
        if start <? oend then
          do ostart <- nth_error (im_starts m) idx;
          if oend <=? end_ then
            Some (set_nth (im_ends m) idx start, si, ei, vi, [ModifiedEnd (ostart, oend) start])
          else
            do v <- nth_error (im_vals m) idx;
            Some (set_nth (im_ends m) idx start, si ++ [end_], ei ++ [oend], vi ++ [v],
                  [Split (ostart, oend) (ostart, start) (end_, oend)])
        else Some (im_ends m, si, ei, vi, [])
    end;
  (* 206-209 *)
  let splice_end := match binary_search ends end_ with inl i => S i | inr i => i end in
  (* 212-229; the index checks are the && in the code *)
  let '(starts, modified_start) :=
    match nth_error (im_starts m) splice_end, nth_error ends splice_end with
    | Some s, Some e =>
        if (s <? end_) && (end_ <? e)
        then (set_nth (im_starts m) splice_end end_, [ModifiedBegin (s, e) end_])
        else (im_starts m, [])
    | _, _ => (im_starts m, [])
    end in
  (* 234-251 *)
  do (starts', ds) <- vec_splice starts splice_start splice_end si;
  do (ends', de) <- vec_splice ends splice_start splice_end ei;
  do (vals', dv) <- vec_splice (im_vals m) splice_start splice_end vi;
  check (Nat.leb (length (combine ds de)) (length dv));
  Some (mkIM starts' ends' vals',
        muts ++ map (fun '(i, v) => Removed i v) (combine (combine ds de) dv) ++ modified_start).

(* interval_map.rs:127-137 *)
Definition im_clear (m : imap) (start end_ : Z) := im_splice m start end_ None.
Definition im_insert (m : imap) (start end_ : Z) (v : V) := im_splice m start end_ (Some v).

(* interval_map.rs:255-268 *)
Definition get_index (m : imap) (x : Z) : option (option nat) :=
  match binary_search (im_starts m) x with
  | inl i => Some (Some i)
  | inr 0%nat => Some None
  | inr (S i) => do e <- nth_error (im_ends m) i; Some (if x <? e then Some i else None)
  end.

(* interval_map.rs:271-274 *)
Definition im_get (m : imap) (x : Z) : option (option (interval * V)) :=
  do r <- get_index m x;
  match r with
  | None => Some None
  | Some i =>
      do s <- nth_error (im_starts m) i;
      do e <- nth_error (im_ends m) i;
      do v <- nth_error (im_vals m) i;
      Some (Some ((s, e), v))
  end.

(** Histories *)
Inductive iop := IInsert (s e : Z) (v : V) | IClear (s e : Z).
Definition im_step (m : imap) (o : iop) : option (imap * list mutation) :=
  match o with IInsert s e v => im_insert m s e v | IClear s e => im_clear m s e end.
Fixpoint im_run (m : imap) (l : list iop) : option imap :=
  match l with [] => Some m | o :: r => do (m', _) <- im_step m o; im_run m' r end.

End IMap.
Arguments mutation : clear implicits.
Arguments imap : clear implicits.
Arguments iop : clear implicits.
