(** What an epoll user is owed, read off the history of operations. Histories are newest first. *)
From Verif Require Import Base FMap EpollModel.

Inductive ev : Type := IN | OUT | RDHUP.
Definition has (e : evs) (b : ev) : bool := match b with IN => ev_in e | OUT => ev_out e | RDHUP => ev_rdhup e end.
Definition on (s : fstate) (b : ev) : bool :=
  match b with IN => st_readable s | OUT => st_writable s | RDHUP => st_rdhup s end.

(** The state of a file: what it last changed to. *)
Fixpoint file_state (h : hist) (f : Z) : fstate :=
  match h with
  | [] => st_empty
  | (Change g s _, _, _) :: r => if g =? f then s else file_state r f
  | _ :: r => file_state r f
  end.

(** The registration of a descriptor: as last added or modified, unless deleted, or its file closed, since. *)
Fixpoint registered (h : hist) (k : key) : option (interest * Z) :=
  match h with
  | [] => None
  | (Ctl c k' i d, Ok, _) :: r =>
      if eqb k' k then match c with Del => None | _ => Some (i, d) end else registered r k
  | (Change f s _, _, _) :: r => if (f =? snd k) && st_closed s then None else registered r k
  | _ :: r => registered r k
  end.

(** Whether a wait's reports include event [b] for descriptor [k]. *)
Definition reports (l : list report) (k : key) (b : ev) : bool :=
  existsb (fun r => eqb (fst r) k && has (fst (snd r)) b) l.

(** Whether the event was reported since the descriptor was last added or modified. *)
Fixpoint reported (h : hist) (k : key) (b : ev) : bool :=
  match h with
  | [] => false
  | (Ctl c k' i d, Ok, _) :: r => if eqb k' k then false else reported r k b
  | (Wait _, Events l, _) :: r => reports l k b || reported r k b
  | _ :: r => reported r k b
  end.

(** Whether it was reported since its last edge: adding or modifying the descriptor, a change of that
    bit of the file's state, or new data while readable. *)
Fixpoint edge_reported (h : hist) (k : key) (b : ev) : bool :=
  match h with
  | [] => false
  | (Ctl c k' i d, Ok, _) :: r => if eqb k' k then false else edge_reported r k b
  | (Change f s grew, _, _) :: r =>
      if (f =? snd k) && (xorb (on s b) (on (file_state r f) b) || match b with IN => grew && st_readable s | _ => false end)
      then false else edge_reported r k b
  | (Wait _, Events l, _) :: r => reports l k b || edge_reported r k b
  | _ :: r => edge_reported r k b
  end.

(** Whether an event is to be reported: it was asked for and is on. An edge-triggered registration
    reports it once per edge, and a one-shot registration only once. A legacy socket must be active. *)
Definition due (legacy : Z -> bool) (h : hist) (k : key) (b : ev) : bool :=
  match registered h k with
  | None => false
  | Some (i, _) =>
      has (want i) b && on (file_state h (snd k)) b &&
      (if et i then negb (edge_reported h k b) else true) &&
      (if oneshot i then negb (reported h k b) else true) &&
      (if legacy (snd k) then st_active (file_state h (snd k)) else true)
  end.

(** Whether a descriptor has an event to be reported. *)
Definition ready_key (legacy : Z -> bool) (h : hist) (k : key) : Prop := exists b, due legacy h k b = true.

(** The result of a wait for at most [max] events: no descriptor twice, at most [max]; each with all
    the events due, at least one, and the data registered; and if room was left, every descriptor
    with an event due. *)
Record good_wait (legacy : Z -> bool) (h : hist) (max : Z) (l : list report) : Prop := {
  gw_nodup : NoDup (map fst l);
  gw_max : Z.of_nat (length l) <= max;
  gw_report : forall k es d, In (k, (es, d)) l ->
    (forall b, has es b = due legacy h k b) /\ ready_key legacy h k /\ exists i, registered h k = Some (i, d);
  gw_full : Z.of_nat (length l) < max -> forall k, ready_key legacy h k -> In k (map fst l) }.

(** An edge for [b], between two points of a history. *)
Definition is_edge (before : hist) (x : op * res * list bool) (k : key) (b : ev) : Prop :=
  match x with
  | (Ctl _ k' _ _, Ok, _) => k' = k
  | (Change f s grew, _, _) =>
      f = snd k /\ (on s b <> on (file_state before f) b \/ b = IN /\ grew = true /\ st_readable s = true)
  | _ => False
  end.
Definition reports_at (x : op * res * list bool) (k : key) (b : ev) : Prop :=
  match x with (Wait _, Events l, _) => reports l k b = true | _ => False end.
Definition registers (x : op * res * list bool) (k : key) : Prop :=
  match x with (Ctl _ k' _ _, Ok, _) => k' = k | _ => False end.

(** The room offered by the waits in a piece of history. *)
Fixpoint room (h : hist) : Z :=
  match h with
  | [] => 0
  | (Wait m, Events _, _) :: r => m + room r
  | _ :: r => room r
  end.

(** Descriptors added so far, for file [f] or for any; and how often an operation may put a
    descriptor in the ready set. *)
Fixpoint adds (h : hist) (f : option Z) : Z :=
  match h with
  | [] => 0
  | (Ctl Add k _ _, Ok, _) :: r => (if match f with Some f => f =? snd k | None => true end then 1 else 0) + adds r f
  | _ :: r => adds r f
  end.
Definition need (h : hist) (o : op) : Z :=
  match o with
  | Ctl _ _ _ _ => 1
  | Change f _ _ => adds h (Some f)
  | Wait m => Z.min (Z.max m 0) (adds h None)
  end.
Fixpoint used (h : hist) : Z :=
  match h with [] => 0 | (o, _, _) :: r => need r o + used r end.

(** The READABLE bit its listeners last heard of. *)
Fixpoint told (h : hist) : bool :=
  match h with
  | [] => false
  | (_, _, n) :: r => last n (told r)
  end.

(** Each notification is news to the listeners. *)
Fixpoint alternates (r : bool) (n : list bool) : Prop :=
  match n with [] => True | x :: t => x = negb r /\ alternates x t end.

(** The result of epoll_ctl. *)
Definition ctl_result (h : hist) (c : ctlop) (k : key) : res :=
  match c, registered h k with
  | Add, _ => if st_closed (file_state h (snd k)) then Err EBADF
              else match registered h k with Some _ => Err EEXIST | None => Ok end
  | _, Some _ => Ok
  | _, None => Err ENOENT
  end.
