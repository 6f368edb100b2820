(** Event counters. /repo/src/main/host/descriptor/eventfd.rs *)
From Verif Require Import Base.

(** Status bits (descriptor/mod.rs, [FileState]); the others never change here. *)
Record fstate : Type := { st_active : bool; st_readable : bool; st_writable : bool; st_closed : bool }.
(** eventfd.rs:16-25 [struct EventFd]; flags kept for OpenFile and the listeners are left out. *)
Record eventfd : Type := { counter : Z; semaphore : bool; state : fstate }.

(** A notification to the listeners: the new state and whether the read buffer grew
    (eventfd.rs:268-283). *)
Definition note : Type := fstate * bool.

Inductive errno : Type := EINVAL | EWOULDBLOCK | ESPIPE | EFAULT.

(** eventfd.rs:28-37 [new] *)
Definition eventfd_new (init : Z) (sem : bool) : eventfd :=
  {| counter := init; semaphore := sem;
     state := {| st_active := true; st_readable := false; st_writable := true; st_closed := false |} |}.

Definition fstate_eqb (a b : fstate) : bool :=
  Bool.eqb (st_active a) (st_active b) && Bool.eqb (st_readable a) (st_readable b) &&
  Bool.eqb (st_writable a) (st_writable b) && Bool.eqb (st_closed a) (st_closed b).

(** eventfd.rs:252-283 [update_state], [handle_state_change]: listeners are told when something
    changed or a signal is raised. *)
Definition update_state (e : eventfd) (s : fstate) (grew : bool) : eventfd * list note :=
  ({| counter := counter e; semaphore := semaphore e; state := s |},
   if fstate_eqb s (state e) && negb grew then [] else [(s, grew)]).

(** eventfd.rs:232-250 [refresh_state] *)
Definition refresh_state (e : eventfd) (grew : bool) : eventfd * list note :=
  if st_closed (state e) then (e, [])
  else update_state e
    {| st_active := st_active (state e);
       st_readable := 0 <? counter e;
       st_writable := counter e <? U64_MAX - 1;
       st_closed := false |} grew.

(** eventfd.rs:64-74 [close] *)
Definition close (e : eventfd) : eventfd * list note :=
  update_state e {| st_active := false; st_readable := false; st_writable := false; st_closed := true |} false.

Definition set_counter (e : eventfd) (c : Z) : eventfd :=
  {| counter := c; semaphore := semaphore e; state := state e |}.

(** A transfer to or from the program's memory: iovec lengths, whether an offset was given, and
    whether the eight bytes are accessible. The bytes stand for the integer they encode. *)
Record request : Type := { lens : list Z; has_offset : bool; accessible : bool }.
Definition total_len (l : list Z) : Z := fold_right Z.add 0 l.

(** eventfd.rs:76-126 [readv]: the integer delivered, or the error. The subtraction at 114 panics
    below zero. *)
Definition readv (e : eventfd) (r : request) : option (eventfd * (Z + errno) * list note) :=
  if has_offset r then Some (e, inr ESPIPE, [])
  else if total_len (lens r) <? 8 then Some (e, inr EINVAL, [])
  else if counter e =? 0 then Some (e, inr EWOULDBLOCK, [])
  else if negb (accessible r) then Some (e, inr EFAULT, [])
  else
    do vc <- (if semaphore e then check (1 <=? counter e); Some (1, counter e - 1) else Some (counter e, 0));
    let (e', n) := refresh_state (set_counter e (snd vc)) false in
    Some (e', inl (fst vc), n).

(** eventfd.rs:128-185 [writev] of the integer [v]. The subtraction at 168 panics below zero and the
    addition at 173 above the largest u64. *)
Definition writev (e : eventfd) (r : request) (v : Z) : option (eventfd * option errno * list note) :=
  if has_offset r then Some (e, Some ESPIPE, [])
  else if total_len (lens r) <? 8 then Some (e, Some EINVAL, [])
  else if 1 <? Z.of_nat (length (lens r)) then Some (e, Some EINVAL, [])
  else if negb (accessible r) then Some (e, Some EFAULT, [])
  else if v =? U64_MAX then Some (e, Some EINVAL, [])
  else
    check (counter e <=? U64_MAX - 1);
    if U64_MAX - 1 - counter e <? v then Some (e, Some EWOULDBLOCK, [])
    else
      check (counter e + v <=? U64_MAX);
      let e1 := set_counter e (counter e + v) in
      let (e', n) := refresh_state e1 (0 <? counter e1) in
      Some (e', None, n).

Inductive eop : Type := Read (r : request) | Write (r : request) (v : Z) | Close.
Inductive eres : Type := Got (v : Z) | Put | Done | Err (e : errno).
Definition estep (e : eventfd) (o : eop) : option (eventfd * eres * list note) :=
  match o with
  | Read r =>
      do (x, n) <- readv e r;
      let (e', v) := x in Some (e', match v with inl v => Got v | inr err => Err err end, n)
  | Write r v =>
      do (x, n) <- writev e r v;
      let (e', v) := x in Some (e', match v with None => Put | Some err => Err err end, n)
  | Close => let (e', n) := close e in Some (e', Done, n)
  end.
(** A history: the state, and for every operation its result and notifications. *)
Fixpoint erun (e : eventfd) (l : list eop) : option (eventfd * list (eres * list note)) :=
  match l with
  | [] => Some (e, [])
  | o :: r => do (x, n) <- estep e o; do (e', xs) <- erun (fst x) r; Some (e', (snd x, n) :: xs)
  end.
