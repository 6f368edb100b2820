(** Specification of scheduling rounds: every host is executed exactly once. *)
From Verif Require Import Base SchedModel.

Section Spec.
Variable H : Type.

Definition inputs (l : list (nat * H * H)) : list H := map (fun x => snd (fst x)) l.
Definition outputs (l : list (nat * H * H)) : list H := map snd l.
Definition threads (l : list (nat * H * H)) : list nat := map (fun x => fst (fst x)) l.

(** The hosts owned by a scheduler between rounds. *)
Definition hosts_of (s : sched H) : list H :=
  concat (thread_hosts H s) ++ concat (thread_hosts_processed H s).

(** The hosts being run by threads. *)
Definition run1 (p : pc H) : list H := match p with At _ _ => [] | Running _ _ h => [h] end.
Definition running (l : list (pc H)) : list H := flat_map run1 l.

(** [ran f n before l after]: the log [l] executes each host of [before] exactly once, on one of
    the [n] threads, with result [f]; [after] are the results. *)
Definition ran (f : nat -> H -> H) (n : nat) (before : list H) (l : list (nat * H * H)) (after : list H) : Prop :=
  Permutation (inputs l) before /\ Permutation (outputs l) after /\
  Forall (fun x => (fst (fst x) < n)%nat /\ snd x = f (fst (fst x)) (snd (fst x))) l.

(** A history of rounds, each starting with the hosts left by the one before. *)
Inductive rounds (n : nat) : list H -> list (task H) -> list (list (nat * H * H)) -> list H -> Prop :=
| rounds_nil : forall hs hs', Permutation hs hs' -> rounds n hs [] [] hs'
| rounds_none : forall hs t ts ls hs', t = RunNothing H \/ t = RunPlain H ->
    rounds n hs ts ls hs' -> rounds n hs (t :: ts) ([] :: ls) hs'
| rounds_hosts : forall hs f order l mid ts ls hs', ran f n hs l mid ->
    rounds n mid ts ls hs' -> rounds n hs (RunHosts H f order :: ts) (l :: ls) hs'.
End Spec.
