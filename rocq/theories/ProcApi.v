(** What calls about processes and signals promise, written down separately from the
    handlers of [ProcModel]. *)
From Verif Require Import Base FMap ProcModel ProcFaults.

(** The call has completed with a result that the application will see, unless a
    signal ends the process before. *)
Definition completes (h : host) (pid tid : Z) (c : call) (v : Z) : Prop :=
  h_cur h = Some (pid, tid, MSig (mkRet v false (Some c)) true).

(** The call was interrupted before it could complete; it may be made again. *)
Definition interrupted (h : host) (pid tid : Z) (c : call) : Prop :=
  h_cur h = Some (pid, tid, MSig (mkRet (- EINTR) true (Some c)) true).

(** The process takes no notice of the signal: it is ignored, or its default action is
    to be ignored (SIGCHLD, SIGURG, SIGWINCH). *)
Definition discards (r : run) (s : Z) : Prop :=
  sa_h (act_of r s) = HIgn \/ (sa_h (act_of r s) = HDfl /\ In s [17; 23; 28]).

(** A signal that is pending for the thread and not blocked. *)
Definition deliverable (r : run) (t : thr) : Prop :=
  exists s, (shas (t_pend t) s = true \/ shas (n_pend r) s = true) /\ shas (t_mask t) s = false.

(** The alternate stack [s'] of a thread while a handler runs, if it was [s] before:
    unused without SA_ONSTACK or when there is none, given up with SS_AUTODISARM. *)
Definition stack_of (onstack : bool) (s s' : stk) : Prop :=
  if negb onstack || ss_disable s then s' = s
  else if ss_autodisarm s then s' = stk_none
  else s' = mkStk (ss_sp s) (ss_size s) false true false (ss_other s).

(** ** A step changes at most the thread [tid] of process [pid] *)
Definition only_thread (h h' : host) (pid tid : Z) : Prop :=
  (forall z, z <> pid -> get z (h_procs h') = get z (h_procs h)) /\
  forall r, run_of h pid = Some r -> exists r', run_of h' pid = Some r' /\ n_pend r' = n_pend r /\ n_acts r' = n_acts r /\
    forall x, x <> tid -> get x (n_thr r') = get x (n_thr r).

(** ** Children that wait4 and waitid report *)
Definition kind_ok (all clone : bool) (q : proc) : Prop :=
  all = true \/ (clone = true /\ p_exs q <> Some 17) \/ (clone = false /\ p_exs q = Some 17).
Definition selects4 (h : host) (me x : Z) (fl : wflags) (z : Z) (q : proc) : Prop :=
  get z (h_procs h) = Some q /\ p_par q = me /\ kind_ok (w_all fl) (w_clone fl) q /\
  (x = -1 \/ (x < -1 /\ p_pgid q = - x) \/
   (x = 0 /\ exists m, get me (h_procs h) = Some m /\ p_pgid q = p_pgid m) \/ (0 < x /\ z = x)).
Definition selectsid (h : host) (me : Z) (w : wid) (x : Z) (fl : wflags) (z : Z) (q : proc) : Prop :=
  get z (h_procs h) = Some q /\ p_par q = me /\ kind_ok (w_all fl) (w_clone fl) q /\
  match w with
  | PAll => True
  | PPid => z = x
  | PPgid => (x = 0 /\ exists m, get me (h_procs h) = Some m /\ p_pgid q = p_pgid m) \/ (0 < x /\ p_pgid q = x)
  | _ => False
  end.
Definition ended (q : proc) : Prop := exists s, p_st q = PZom s.

(** What a wait call does that is about the children [sel]: it fails if there are none,
    reports the ended one with the least id and removes it (unless [nowait]), and
    otherwise returns 0 ([nohang]), is interrupted by a signal or blocks. *)
Definition wait_outcome (h : host) (pid tid : Z) (c : call) (r : run) (t : thr) (h' : host) (o' : list obs) (sel : Z -> proc -> Prop) (nohang exited nowait : bool) (ret : Z -> Z) : Prop :=
  (~ (exists z q, sel z q) -> completes h' pid tid c (- ECHILD) /\ o' = [OCall pid tid c] /\ h_procs h' = h_procs h) /\
  ((exists z q, sel z q) -> (exited = false \/ ~ exists z q, sel z q /\ ended q) -> o' = [OCall pid tid c] /\
     (nohang = true -> completes h' pid tid c 0 /\ h_procs h' = h_procs h) /\
     (nohang = false -> deliverable r t -> interrupted h' pid tid c /\ h_procs h' = h_procs h) /\
     (nohang = false -> ~ deliverable r t -> h_cur h' = None /\ waits_blocked h' pid tid c /\ forall z, z <> pid -> get z (h_procs h') = get z (h_procs h))) /\
  (forall z q s, exited = true -> sel z q -> p_st q = PZom s -> (forall z' q', sel z' q' -> ended q' -> z <= z') ->
     completes h' pid tid c (ret z) /\ o' = OCall pid tid c :: (if nowait then [] else [OReap pid z s]) /\
     forall y, get y (h_procs h') = if negb nowait && (y =? z) then None else get y (h_procs h)).

(** ** Groups and sessions *)
Definition may_setpgid (h : host) (me tgt g : Z) (p q : proc) : Prop :=
  (tgt = me \/ p_par q = me) /\
  (g = 0 \/ exists z y, get z (h_procs h) = Some y /\ p_pgid y = g /\ p_sid y = p_sid q) /\
  p_sid q = p_sid p /\ p_sid q <> tgt.

(** ** New processes: the arguments of clone that make one *)
Definition plain_clone (fl : cflags) (raw : Z) : Prop :=
  cf_thread fl = false /\ cf_sighand fl = false /\ (cf_vm fl = true -> cf_vfork fl = true) /\ cf_other fl = false /\ (raw = 0 \/ 1 <= raw <= 64).

(** ** The exit of threads: what the thread that has the id of the process gave to exit last *)
Fixpoint leader_code (pid c : Z) (o : list obs) : Z :=
  match o with
  | [] => c
  | x :: o' =>
      leader_code pid (match x with
                       | OBorn p _ => if p =? pid then 0 else c
                       | OCall p t (Exit k) => if (p =? pid) && (t =? pid) then Z.land k 255 else c
                       | _ => c
                       end) o'
  end.
