(** What a trace of the processes and signals of a host must look like: two small
    machines that read the observations of [ProcModel] and nothing else. *)
From Verif Require Import Base ProcModel.

(** * Signals

    For each process and each thread, and each signal number, at most one signal is
    pending.  A signal is taken at most once, with the information it was sent with,
    by a thread it was sent to. *)
Definition pendings := dest -> Z -> option sinfo.
Definition nothing : pendings := fun _ _ => None.

Definition dest_eqb (a b : dest) : bool :=
  match a, b with
  | DPr p, DPr q => p =? q
  | DTh p t, DTh q u => (p =? q) && (t =? u)
  | _, _ => false
  end.
Definition pid_of (d : dest) : Z := match d with DPr p => p | DTh p _ => p end.

Definition note (s : pendings) (x : obs) : pendings :=
  match x with
  | OQueue d i => fun d' n => if dest_eqb d' d && (n =? si_sig i) then Some i else s d' n
  | OTake _ _ d i => fun d' n => if dest_eqb d' d && (n =? si_sig i) then None else s d' n
  | OExec pid tid => fun d' n =>
      match d' with
      | DTh p t => if p =? pid then (if t =? pid then s (DTh pid tid) n else None) else s d' n
      | DPr _ => s d' n
      end
  | ODied pid _ => fun d' n => if pid_of d' =? pid then None else s d' n
  | _ => s
  end.

Definition may (s : pendings) (x : obs) : Prop :=
  match x with
  | OQueue d i => s d (si_sig i) = None /\ 1 <= si_sig i <= 31
  | OTake p t d i => s d (si_sig i) = Some i /\ (d = DPr p \/ d = DTh p t)
  | _ => True
  end.

Fixpoint obeys (s : pendings) (o : list obs) : Prop :=
  match o with [] => True | x :: o => may s x /\ obeys (note s x) o end.
Definition after (s : pendings) (o : list obs) : pendings := fold_left note o s.

(** * Lives of processes

    A process has a parent, is alive or has ended with a status; [fst]: the greatest
    process id used. *)
Definition lives : Type := Z * (Z -> option (Z * option status)).
Definition nobody : lives := (999, fun _ => None).

Definition lnote (l : lives) (x : obs) : lives :=
  match x with
  | OBorn pid par => (pid, fun z => if z =? pid then Some (par, None) else snd l z)
  | ODied pid s => (fst l, fun z =>
      if z =? pid then match snd l pid with Some (par, _) => Some (par, Some s) | None => None end
      else match snd l z with
           | Some (par, st) => Some (if par =? pid then INIT else par, st)
           | None => None
           end)
  | OReap _ pid _ => (fst l, fun z => if z =? pid then None else snd l z)
  | OFreed pid => (fst l, fun z => if z =? pid then None else snd l z)
  | _ => l
  end.

Definition lmay (l : lives) (x : obs) : Prop :=
  match x with
  | OBorn pid par => fst l < pid /\ (par = INIT \/ exists q, snd l par = Some (q, None))
  | ODied pid _ => exists par, snd l pid = Some (par, None)
  | OReap par pid s => snd l pid = Some (par, Some s) /\ exists q, snd l par = Some (q, None)
  | OFreed pid => exists par s, snd l pid = Some (par, Some s)
  | _ => True
  end.

Fixpoint lobeys (l : lives) (o : list obs) : Prop :=
  match o with [] => True | x :: o => lmay l x /\ lobeys (lnote l x) o end.
Definition lafter (l : lives) (o : list obs) : lives := fold_left lnote o l.
