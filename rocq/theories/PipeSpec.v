(** Specification of a pipe: a bounded sequence of bytes (and packets, with O_DIRECT) between the open
    files of the pipe. *)
From Verif Require Import Base ByteQueueModel ByteQueueSpec PipeModel.

Section Spec.
Context {B : Type}.

(** What the pipe holds, and its capacity. *)
Definition held (wd : world B) : list (item B) := content (sb_queue (w_buf wd)).
Definition capacity (wd : world B) : nat := sb_max (w_buf wd).
Definition room (wd : world B) : nat := capacity wd - total_bytes (held wd).

(** Files open on the pipe. *)
Definition open_at (wd : world B) (i : nat) (p : pipe) : Prop :=
  nth_error (w_pipes wd) i = Some p /\ p_closed p = false.
Definition has_reader (wd : world B) : Prop := exists i p, open_at wd i p /\ p_read p = true.
Definition has_writer (wd : world B) : Prop := exists i p, open_at wd i p /\ p_write p = true.

(** Operations whose memory arguments are valid. *)
Definition clean (o : pop_ B) : Prop :=
  match o with
  | PRead _ w n => w = slice n
  | PWrite _ m _ => m_len m = length (m_bytes m)
  | _ => True
  end.
(** No reader's memory blocks (plugin memory never does). *)
Definition unblocked (o : pop_ B) : Prop := match o with PRead _ w _ => ~ In WBlock (w_script w) | _ => True end.
(** Operations on open files. Blocking writers (there are none for plugin memory) are excluded. *)
Definition valid_on (wd : world B) (o : pop_ B) : Prop :=
  match o with
  | PConnect _ _ _ => (length (w_pipes wd) < Z.to_nat U16_MAX)%nat
  | PClose i | PSetDirect i _ => exists p, open_at wd i p
  | PRead i w _ => (exists p, open_at wd i p) /\ ~ In WBlock (w_script w)
  | PWrite i _ _ => exists p, open_at wd i p
  end.

(** The packets a write in packet mode puts into a pipe with the given room: pieces of at most
    [PB] bytes, as many as fit. *)
Fixpoint packets (fuel PB space : nat) (l : list B) : list (list B) :=
  match fuel, l with
  | O, _ | _, [] => []
  | S fuel, _ => let p := firstn PB l in
      if Nat.leb (length p) space then p :: packets fuel PB (space - length p) (skipn PB l) else []
  end.
(** Packet mode starts with a write to an empty pipe under O_DIRECT and lasts until O_DIRECT is removed. *)
Definition packet_mode (wd : world B) (p : pipe) : Prop :=
  p_direct p = true /\ (p_wmode p = Packet \/ held wd = []).

(** The outcome of a write of [l] by an open file when there is a reader. *)
Definition stream_outcome (wd : world B) (l : list B) (r : nat + perrno) (added : list (item B)) : Prop :=
  let k := Nat.min (room wd) (length l) in
  added = map IByte (firstn k l) /\
  r = match l with [] => inl O | _ => if Nat.eqb (room wd) 0 then inr EAGAIN else inl k end.
Definition packet_outcome (PB : nat) (wd : world B) (l : list B) (r : nat + perrno) (added : list (item B)) : Prop :=
  let ps := packets (S (length l)) PB (room wd) l in
  added = map IPkt ps /\
  r = match l, ps with
      | [], _ => inl O
      | _, [] => if Nat.ltb (capacity wd) (Nat.min (length l) PB) then inr EMSGSIZE else inr EAGAIN
      | _, _ => inl (length (concat ps))
      end.

(** What an operation adds to and removes from the pipe, given its result. *)
Definition bytes_of (l : list (item B)) : list B :=
  flat_map (fun i => match i with IByte b => [b] | IPkt p => p end) l.
Definition puts (o : pop_ B) (x : pout B) (add : list (item B)) : Prop :=
  match o, x with
  | PWrite _ m _, PWriteRes (inl n) => bytes_of add = firstn n (m_bytes m) /\ (n <= length (m_bytes m))%nat
  | _, _ => add = []
  end.
Definition gets (o : pop_ B) (x : pout B) (rem : list (item B)) : Prop :=
  match o, x with
  | PRead _ _ _, PReadRes (inl n) out =>
      n = length out /\ (rem = map IByte out \/ exists p, rem = [IPkt p] /\ prefix out p)
  | _, PReadRes (inr _) out => rem = [] /\ out = []
  | _, _ => rem = []
  end.
(** The bytes written and read over a history. *)
Definition sent (o : pop_ B) (x : pout B) : list B :=
  match o, x with PWrite _ m _, PWriteRes (inl n) => firstn n (m_bytes m) | _, _ => [] end.
Definition received (x : pout B) : list B := match x with PReadRes _ out => out | _ => [] end.
Definition stream_only (o : pop_ B) : Prop :=
  match o with PConnect _ _ d | PSetDirect _ d => d = false | _ => True end.
End Spec.
