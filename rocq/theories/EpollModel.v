(** Epoll. /repo/src/main/host/descriptor/epoll/{mod,entry,key}.rs and the listeners of
    /repo/src/main/host/descriptor/listener.rs *)
From Verif Require Import Base FMap.

(** descriptor/mod.rs:113-151 [FileState]: the bits epoll looks at, and one for all the others. *)
Record fstate : Type := {
  st_active : bool; st_readable : bool; st_writable : bool; st_closed : bool; st_rdhup : bool; st_other : bool }.
(** [EpollEvents] that can be reported. EPOLLERR, EPOLLHUP, EPOLLPRI and the others never are
    (entry.rs:185-216), so they are left out of interest sets too. *)
Record evs : Type := { ev_in : bool; ev_out : bool; ev_rdhup : bool }.
(** An interest set: the events, EPOLLET and EPOLLONESHOT. *)
Record interest : Type := { want : evs; et : bool; oneshot : bool }.

(** bitflags operations *)
Definition st_empty : fstate :=
  {| st_active := false; st_readable := false; st_writable := false; st_closed := false; st_rdhup := false; st_other := false |}.
Definition st_all : fstate :=
  {| st_active := true; st_readable := true; st_writable := true; st_closed := true; st_rdhup := true; st_other := true |}.
Definition st_map2 (f : bool -> bool -> bool) (a b : fstate) : fstate :=
  {| st_active := f (st_active a) (st_active b); st_readable := f (st_readable a) (st_readable b);
     st_writable := f (st_writable a) (st_writable b); st_closed := f (st_closed a) (st_closed b);
     st_rdhup := f (st_rdhup a) (st_rdhup b); st_other := f (st_other a) (st_other b) |}.
Definition st_union : fstate -> fstate -> fstate := st_map2 orb.
Definition st_diff : fstate -> fstate -> fstate := st_map2 (fun x y => x && negb y).
Definition st_xor : fstate -> fstate -> fstate := st_map2 xorb.
Definition st_is_empty (a : fstate) : bool :=
  negb (st_active a || st_readable a || st_writable a || st_closed a || st_rdhup a || st_other a).
Definition st_intersects (a b : fstate) : bool := negb (st_is_empty (st_map2 andb a b)).
Definition st_closed_only : fstate :=
  {| st_active := false; st_readable := false; st_writable := false; st_closed := true; st_rdhup := false; st_other := false |}.
Definition st_readable_only : fstate :=
  {| st_active := false; st_readable := true; st_writable := false; st_closed := false; st_rdhup := false; st_other := false |}.
Definition ev_map2 (f : bool -> bool -> bool) (a b : evs) : evs :=
  {| ev_in := f (ev_in a) (ev_in b); ev_out := f (ev_out a) (ev_out b); ev_rdhup := f (ev_rdhup a) (ev_rdhup b) |}.
Definition ev_inter : evs -> evs -> evs := ev_map2 andb.
Definition ev_remove : evs -> evs -> evs := ev_map2 (fun x y => x && negb y).
Definition ev_is_empty (a : evs) : bool := negb (ev_in a || ev_out a || ev_rdhup a).

(** entry.rs:11-26 [struct Entry]; the listener handle is kept in [listeners] below. *)
Record entry : Type := {
  priority : option Z; interest_of : interest; data : Z; state : fstate; collected : fstate; is_legacy : bool }.
Definition set_priority (e : entry) (p : option Z) : entry :=
  {| priority := p; interest_of := interest_of e; data := data e; state := state e; collected := collected e;
     is_legacy := is_legacy e |}.

(** entry.rs:28-40 [new], and [set_legacy] *)
Definition entry_new (i : interest) (d : Z) (s : fstate) (legacy : bool) : entry :=
  {| priority := None; interest_of := i; data := d; state := s; collected := st_empty; is_legacy := legacy |}.

(** entry.rs:53-59 [modify] *)
Definition modify (e : entry) (i : interest) (d : Z) (s : fstate) : entry :=
  {| priority := priority e; interest_of := i; data := d; state := s; collected := st_empty; is_legacy := is_legacy e |}.

(** entry.rs:69-94 [notify]; [grew] is the READ_BUFFER_GREW signal. *)
Definition notify (e : entry) (new_state changed : fstate) (grew : bool) : option entry :=
  let c := st_diff (collected e) changed in
  check (negb grew || et (interest_of e));
  let c' := if grew && st_readable new_state then st_diff c st_readable_only else c in
  Some {| priority := priority e; interest_of := interest_of e; data := data e; state := new_state; collected := c';
          is_legacy := is_legacy e |}.

(** entry.rs:185-216 [events_from_state], [state_from_events] *)
Definition events_from_state (s : fstate) : evs :=
  {| ev_in := st_readable s; ev_out := st_writable s; ev_rdhup := st_rdhup s |}.
Definition state_from_events (e : evs) : fstate :=
  {| st_active := false; st_readable := ev_in e; st_writable := ev_out e; st_closed := false; st_rdhup := ev_rdhup e;
     st_other := false |}.

(** entry.rs:96-114 [get_listener_state], [get_listener_signals] *)
Definition listener_state (e : entry) : fstate :=
  if is_legacy e then st_all else st_union (state_from_events (want (interest_of e))) st_closed_only.
Definition listener_signals (e : entry) : bool := et (interest_of e).

(** entry.rs:170-183 [get_ready_state], [get_ready_events] *)
Definition ready_state (e : entry) : fstate :=
  if et (interest_of e) then st_diff (state e) (collected e) else state e.
Definition ready_events (e : entry) : evs := ev_inter (want (interest_of e)) (events_from_state (ready_state e)).

(** entry.rs:120-133 [has_ready_events] *)
Definition entry_ready (e : entry) : bool :=
  if is_legacy e then
    if st_closed (state e) then false
    else if st_active (state e) then negb (ev_is_empty (ready_events e)) else false
  else negb (st_closed (state e)) && negb (ev_is_empty (ready_events e)).

(** entry.rs:135-155 [collect_ready_events] *)
Definition entry_collect (e : entry) : entry * option (evs * Z) :=
  let r := ready_events e in
  if ev_is_empty r then (e, None)
  else
    ({| priority := priority e;
        interest_of := if oneshot (interest_of e)
                       then {| want := ev_remove (want (interest_of e)) r; et := et (interest_of e); oneshot := true |}
                       else interest_of e;
        data := data e; state := state e; collected := st_union (collected e) (state_from_events r);
        is_legacy := is_legacy e |}, Some (r, data e)).

(** key.rs: the descriptor number and the file's canonical handle. *)
Definition key : Type := Z * Z.

(** mod.rs:30-46 [struct Epoll]. The heap is a list from which the greatest priority is taken;
    [readable] is the READABLE bit of the epoll file itself. *)
Record epoll : Type := { pri_counter : Z; monitoring : fmap key entry; ready : list (Z * key); readable : bool }.

(** mod.rs:49-65 [new] *)
Definition epoll_new : epoll := {| pri_counter := U64_MAX; monitoring := []; ready := []; readable := false |}.

(** BinaryHeap::pop: the greatest element. *)
Fixpoint pop_max (l : list (Z * key)) : option ((Z * key) * list (Z * key)) :=
  match l with
  | [] => None
  | x :: r =>
      match pop_max r with
      | None => Some (x, [])
      | Some (y, r') => if fst x <? fst y then Some (y, x :: r') else Some (x, r)
      end
  end.

(** BinaryHeap::retain of mod.rs:208 and 346. *)
Definition heap_remove (p : Z) (l : list (Z * key)) : list (Z * key) := filter (fun x => negb (fst x =? p)) l.

(** [self.pri_counter -= 1] *)
Definition take_pri (c : Z) : option (Z * Z) := check (1 <=? c); Some (c, c - 1).

(** mod.rs:329-349 [refresh_ready] *)
Definition refresh_ready (p : epoll) (k : key) : option epoll :=
  match get k (monitoring p) with
  | None => Some p
  | Some e =>
      if entry_ready e then
        match priority e with
        | None =>
            do (pri, c) <- take_pri (pri_counter p);
            Some {| pri_counter := c; monitoring := put k (set_priority e (Some pri)) (monitoring p);
                    ready := (pri, k) :: ready p; readable := readable p |}
        | Some _ => Some p
        end
      else
        match priority e with
        | Some pri =>
            Some {| pri_counter := pri_counter p; monitoring := put k (set_priority e None) (monitoring p);
                    ready := heap_remove pri (ready p); readable := readable p |}
        | None => Some p
        end
  end.

(** mod.rs:243-284 [refresh_state], [update_state], [handle_state_change]: the listeners of the
    epoll file are told the new READABLE bit when it changed. *)
Definition has_ready (p : epoll) : bool := match ready p with [] => false | _ => true end.
Definition refresh_state (p : epoll) : epoll * list bool :=
  let r := has_ready p in
  ({| pri_counter := pri_counter p; monitoring := monitoring p; ready := ready p; readable := r |},
   if Bool.eqb r (readable p) then [] else [r]).

(** The listener an entry keeps on its file: mod.rs:286-311 [refresh_listener] and listener.rs:116-155.
    An entry has at most one: setting a new handle drops the old one. *)
Record listener : Type := { l_key : key; l_mask : fstate; l_grew : bool }.

(** The files, the epoll file and the listeners it has on the files, in the order they were added. *)
Record world : Type := { files : Z -> fstate; ep : epoll; listeners : list listener }.
Definition world_new : world := {| files := fun _ => st_empty; ep := epoll_new; listeners := [] |}.
Definition drop_listener (k : key) (ls : list listener) : list listener := filter (fun l => negb (eqb (l_key l) k)) ls.

Section World.
(** Whether a file is a legacy TCP socket (mod.rs:178-184). *)
Context (legacy : Z -> bool).

Inductive ctlop : Type := Add | Mod | Del.
Inductive errno : Type := EBADF | EEXIST | ENOENT | EINVAL.

(** mod.rs:286-311 [refresh_listener] *)
Definition refresh_listener (w : world) (k : key) : world :=
  match get k (monitoring (ep w)) with
  | None => w
  | Some e =>
      {| files := files w; ep := ep w;
         listeners := drop_listener k (listeners w) ++
           [{| l_key := k; l_mask := st_union (listener_state e) st_closed_only; l_grew := listener_signals e |}] |}
  end.

(** The table part of mod.rs:146-216 [ctl]: the entries and the ready set, or the error. *)
Definition set_monitoring (p : epoll) (m : fmap key entry) : epoll :=
  {| pri_counter := pri_counter p; monitoring := m; ready := ready p; readable := readable p |}.
Definition ctl_edit (w : world) (o : ctlop) (k : key) (i : interest) (d : Z) : world + errno :=
  let s := files w (snd k) in
  let p := ep w in
  match o with
  | Add =>
      if st_closed s then inr EBADF
      else match get k (monitoring p) with
           | Some _ => inr EEXIST
           | None => inl {| files := files w; ep := set_monitoring p (put k (entry_new i d s (legacy (snd k))) (monitoring p));
                            listeners := listeners w |}
           end
  | Mod =>
      match get k (monitoring p) with
      | None => inr ENOENT
      | Some e => inl {| files := files w; ep := set_monitoring p (put k (modify e i d s) (monitoring p)); listeners := listeners w |}
      end
  | Del =>
      match get k (monitoring p) with
      | None => inr ENOENT
      | Some e =>
          inl {| files := files w;
                 ep := {| pri_counter := pri_counter p; monitoring := del k (monitoring p);
                          ready := match priority e with Some pri => heap_remove pri (ready p) | None => ready p end;
                          readable := readable p |};
                 listeners := drop_listener k (listeners w) |}
      end
  end.
Definition set_ep (w : world) (p : epoll) : world := {| files := files w; ep := p; listeners := listeners w |}.
Definition ctl (w : world) (o : ctlop) (k : key) (i : interest) (d : Z) : option (world * option errno * list bool) :=
  match ctl_edit w o k i d with
  | inr e => Some (w, Some e, [])
  | inl w1 =>
      do p <- refresh_ready (ep w1) k;
      let w2 := refresh_listener (set_ep w1 p) k in
      let (p', n) := refresh_state (ep w2) in
      Some (set_ep w2 p', None, n)
  end.

(** mod.rs:314-338 [notify_entry] *)
Definition notify_entry (w : world) (k : key) (s changed : fstate) (grew : bool) : option (world * list bool) :=
  match get k (monitoring (ep w)) with
  | None => Some (w, [])
  | Some e =>
      do e' <- notify e s changed grew;
      do p <- refresh_ready (set_monitoring (ep w) (put k e' (monitoring (ep w)))) k;
      let w1 := if st_closed s
                then {| files := files w; ep := set_monitoring p (del k (monitoring p)); listeners := drop_listener k (listeners w) |}
                else set_ep w p in
      let (p', n) := refresh_state (ep w1) in
      Some (set_ep w1 p', n)
  end.

(** listener.rs:125-153, the closure: whether the listener is told, and with which signal. *)
Definition call_listener (w : world) (l : listener) (s changed : fstate) (grew : bool) : option (world * list bool) :=
  let flipped := st_intersects (l_mask l) changed in
  let sig := grew && l_grew l in
  if flipped || sig then notify_entry w (l_key l) s changed sig else Some (w, []).
Fixpoint call_listeners (w : world) (ls : list listener) (s changed : fstate) (grew : bool) : option (world * list bool) :=
  match ls with
  | [] => Some (w, [])
  | l :: r =>
      do (w', n) <- call_listener w l s changed grew;
      do (w'', n') <- call_listeners w' r s changed grew;
      Some (w'', n ++ n')
  end.

(** A file changes state or reports new data: every file type tells its listeners as eventfd.rs:252-283
    does, and the callbacks run in order (callback_queue.rs:40-56, 157-162). Callbacks carry the state they were
    queued with and never look at the file, so running them at once rather than at the end of the
    operation makes no difference to this epoll file. *)
Definition change (w : world) (f : Z) (s : fstate) (grew : bool) : option (world * list bool) :=
  let changed := st_xor s (files w f) in
  let w1 := {| files := fun g => if g =? f then s else files w g; ep := ep w; listeners := listeners w |} in
  if st_is_empty changed && negb grew then Some (w1, [])
  else call_listeners w1 (filter (fun l => snd (l_key l) =? f) (listeners w)) s changed grew.

(** mod.rs:355-393 [collect_ready_events]. Each report is shown with the key it is about. *)
Definition report : Type := key * (evs * Z).
Fixpoint collect (fuel : nat) (p : epoll) (max : Z) (events : list report) (keep : list (Z * key)) :
    option (epoll * list report * list (Z * key)) :=
  match ready p with
  | [] => Some (p, events, keep)
  | _ =>
      if Z.of_nat (length events) <? max then
        match fuel with
        | O => None
        | S n =>
            do (x, rest) <- pop_max (ready p);
            let k := snd x in
            do e <- get k (monitoring p);
            let e := set_priority e None in
            check (entry_ready e);
            let (e1, r) := entry_collect e in
            do r <- r;
            if entry_ready e1 then
              do (pri, c) <- take_pri (pri_counter p);
              collect n {| pri_counter := c; monitoring := put k (set_priority e1 (Some pri)) (monitoring p);
                           ready := rest; readable := readable p |} max (events ++ [(k, r)]) (keep ++ [(pri, k)])
            else
              collect n {| pri_counter := pri_counter p; monitoring := put k e1 (monitoring p);
                           ready := rest; readable := readable p |} max (events ++ [(k, r)]) keep
        end
      else Some (p, events, keep)
  end.
(** handler/epoll.rs:290-413 [epoll_wait_helper], with somewhere to write the events. Without events
    it reports none, or blocks until the epoll file is readable. *)
Definition wait (w : world) (max : Z) : option (world * (list report + errno) * list bool) :=
  if max <=? 0 then Some (w, inr EINVAL, [])
  else if has_ready (ep w) then
    do (x, keep) <- collect (length (ready (ep w))) (ep w) max [] [];
    let (p, events) := x in
    let p1 := {| pri_counter := pri_counter p; monitoring := monitoring p; ready := keep ++ ready p; readable := readable p |} in
    let (p', n) := refresh_state p1 in
    Some (set_ep w p', inl events, n)
  else Some (w, inl [], []).

Inductive op : Type :=
| Ctl (o : ctlop) (k : key) (i : interest) (d : Z)
| Change (f : Z) (s : fstate) (grew : bool)
| Wait (max : Z).
Inductive res : Type := Ok | Err (e : errno) | Events (l : list report).
Definition step (w : world) (o : op) : option (world * res * list bool) :=
  match o with
  | Ctl c k i d => do (x, n) <- ctl w c k i d; let (w', e) := x in Some (w', match e with None => Ok | Some e => Err e end, n)
  | Change f s g => do (w', n) <- change w f s g; Some (w', Ok, n)
  | Wait m => do (x, n) <- wait w m; let (w', e) := x in Some (w', match e with inl l => Events l | inr e => Err e end, n)
  end.

(** Histories, newest first: each operation with its result and the notifications sent. *)
Definition hist : Type := list (op * res * list bool).
Inductive runs : hist -> world -> Prop :=
| r_nil : runs [] world_new
| r_cons h w o x n w' : runs h w -> step w o = Some (w', x, n) -> runs ((o, x, n) :: h) w'.
Fixpoint exec (w : world) (l : list op) (h : hist) : option (world * hist) :=
  match l with
  | [] => Some (w, h)
  | o :: r => do (x, n) <- step w o; exec (fst x) r ((o, snd x, n) :: h)
  end.
End World.
