(** What a user expects of an event counter. *)
From Verif Require Import Base EventFdModel.

(** The largest counter value, 2^64 - 2. *)
Definition top : Z := 2^64 - 2.

(** A well-formed request: no offset, at least eight bytes, accessible; and for writing one buffer. *)
Definition good_read (r : request) : Prop :=
  has_offset r = false /\ 8 <= total_len (lens r) /\ accessible r = true.
Definition good_write (r : request) : Prop := good_read r /\ (length (lens r) <= 1)%nat.

Definition value_ok (o : eop) : Prop := match o with Write _ v => 0 <= v < 2^64 | _ => True end.

(** Totals over a history of operations and results. *)
Definition added (ox : eop * eres) : Z := match ox with (Write _ v, Put) => v | _ => 0 end.
Definition taken (ox : eop * eres) : Z := match ox with (Read _, Got v) => v | _ => 0 end.
Definition total (f : eop * eres -> Z) (l : list (eop * eres)) : Z := fold_right (fun ox a => f ox + a) 0 l.
(** The counter that a history leaves. *)
Definition level (init : Z) (h : list (eop * eres)) : Z := init + total added h - total taken h.

(** The right result of an operation at a counter value. *)
Definition right (sem : bool) (c : Z) (o : eop) (x : eres) : Prop :=
  match o with
  | Read r => good_read r ->
      (c = 0 -> x = Err EWOULDBLOCK) /\ (c <> 0 -> x = Got (if sem then 1 else c))
  | Write r v => good_write r ->
      (v = 2^64 - 1 -> x = Err EINVAL) /\
      (v < 2^64 - 1 -> c + v <= top -> x = Put) /\
      (v < 2^64 - 1 -> top < c + v -> x = Err EWOULDBLOCK)
  | Close => x = Done
  end.
(** An ill-formed request fails without effect. *)
Definition ill_formed (o : eop) : Prop :=
  match o with Read r => ~ good_read r | Write r _ => ~ good_write r | Close => False end.

Definition success (x : eres) : Prop := match x with Got _ | Put => True | _ => False end.
Definition is_close (o : eop) : Prop := match o with Close => True | _ => False end.

(** What a listener that remembers the last state it was told of believes. *)
Definition told (s : fstate) (ns : list note) : fstate := last (map fst ns) s.
