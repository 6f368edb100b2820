(** Specification of the mutex: who holds it, who is on the way. *)
From Verif Require Import Base SchedModel MutexModel.

Definition holds (m : mutex) (i : nat) : Prop := nth_error (threads m) i = Some THold.

(** The mutex is free: nobody has a guard, and no guard is disconnected. *)
Definition free (m : mutex) : Prop := (forall i, ~ holds m i) /\ detached m = 0.

(** The thread is in [lock] and not asleep. *)
Definition trying (t : tpc) : bool :=
  match t with TCas _ | TInc | TWait _ | TReload | TDec => true | _ => false end.

(** Correct use of [reconnect]: called only while the mutex is disconnected and nobody else is
    reconnecting it. *)
Fixpoint recon_ok (m : mutex) (acts : list mact) : Prop :=
  match acts with
  | [] => True
  | a :: r =>
      match a with
      | MReconnect i =>
          nth_error (threads m) i = Some TIdle ->
          detached m = 1 /\
          forall j c, nth_error (threads m) j <> Some (TRecon c)
      | _ => True
      end /\ recon_ok (mstep a m) r
  end.
