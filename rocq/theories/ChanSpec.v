(** Specification of the channel. *)
From Verif Require Import Base ChanModel.

Section Spec.
Context {M : Type}.

(** The messages received so far. *)
Fixpoint oks (l : list (option M)) : list M :=
  match l with [] => [] | Some v :: r => v :: oks r | None :: r => oks r end.
Definition received (c : chan M) : list M := oks (results c).

(** Correct use: [send] is called only when every message sent so far has been received. (That
    there is one sender and one receiver is built into the model.) *)
Fixpoint polite (c : chan M) (acts : list (kact M)) : Prop :=
  match acts with
  | [] => True
  | a :: r =>
      (match a with KSend _ => sender c = SIdle -> received c = sends c | _ => True end) /\ polite (kstep a c) r
  end.

(** The messages whose [send] has got to the point of publishing them. *)
Definition published (c : chan M) : list M :=
  match sender c with
  | SStart _ | SWrite _ | SPublish => removelast (sends c)
  | _ => sends c
  end.

(** The receiver is in [receive] and not asleep. *)
Definition receiving (r : rpc M) : Prop :=
  match r with RIdle | RAsleep | RPanic => False | _ => True end.
End Spec.
