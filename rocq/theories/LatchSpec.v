(** Specification of the round barriers. *)
From Verif Require Import Base SchedModel LatchModel.

(** ** The simple latch *)

(** The number of the opening a waiter waits for next, minus one: openings that happened before it
    was created plus its returns. *)
Definition w_round (w : waiter) : Z := w_start w + w_returns w.
Definition w_live (w : waiter) : bool := match w_pc w with WGone => false | _ => true end.

(** Correct use (documented at the top of the file): the latch is opened only when every waiter
    has returned from [wait] for every opening so far. *)
Definition caught_up (l : latch) : Prop :=
  forall w, In w (waiters l) -> w_live w = true -> w_round w = opened l.
Fixpoint synced (l : latch) (acts : list lact) : Prop :=
  match acts with
  | [] => True
  | a :: r => (a = LOpen -> opening l = false -> caught_up l) /\ synced (lstep a l) r
  end.

(** ** The count-down latch *)

(** Correct use: a counter counts down only when there is a waiter and all waiters have returned
    for the rounds before; and there are fewer than 2^64 handles. *)
Definition may_count (l : cdl) (c : counter) : Prop :=
  (exists w, In w (ws l) /\ cw_live w = true) /\
  (forall w, In w (ws l) -> cw_live w = true -> c_round c <= cw_round w).
Fixpoint correct_use (l : cdl) (acts : list cact) : Prop :=
  match acts with
  | [] => True
  | a :: r =>
      match a with
      | CCountDown i =>
          match nth_error (cs l) i with
          | Some c => c_live c = true -> c_notify c = false -> may_count l c
          | None => True
          end
      | _ => True
      end /\ correct_use (cstep a l) r
  end.

(** There is always some counter. *)
Definition some_counter (l : cdl) : Prop := exists c, In c (cs l) /\ c_live c = true.
Fixpoint always_counter (l : cdl) (acts : list cact) : Prop :=
  some_counter l /\
  match acts with [] => True | a :: r => always_counter (cstep a l) r end.

(** Every counter has counted down for round [k]. *)
Definition all_down (l : cdl) (k : Z) : Prop :=
  forall c, In c (cs l) -> c_live c = true -> k < c_round c.

(** A notification is on its way. *)
Definition notifying (l : cdl) : Prop := exists c, In c (cs l) /\ c_notify c = true.
