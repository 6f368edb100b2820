(** The situations in which Shadow, or the shim, panics in the code that [ProcModel]
    models: a list to be read next to the code, separate from the machine. *)
From Verif Require Import Base FMap ProcModel.

(** A process ends whose parent is told with a realtime signal, or that has a child
    which asked for a realtime signal at this moment: the array of pending siginfo has
    no place for it (shim_shmem.rs:233-241). *)
Definition rt_links (h : host) (pid : Z) : Prop :=
  (exists p s, get pid (h_procs h) = Some p /\ p_exs p = Some s /\ 31 < s) \/
  (exists z q s, get z (h_procs h) = Some q /\ p_par q = pid /\ p_pdeath q = Some s /\ 31 < s).

(** Calls: the negation of the least process id (wait.rs:41-43), a pidfd that is
    compared with a child (wait.rs:90), an exit as above. *)
Definition call_fault (h : host) (pid : Z) (c : call) : Prop :=
  match c with
  | Wait4 x _ => x = - 2147483648
  | Waitid PPidfd _ _ => exists z q, get z (h_procs h) = Some q /\ p_par q = pid
  | Exit _ | ExitGroup _ => rt_links h pid
  | _ => False
  end.

(** A signal that the thread may take now and that is not handled. *)
Definition takes_default (h : host) (pid tid sig : Z) : Prop :=
  exists r t, run_of h pid = Some r /\ get tid (n_thr r) = Some t /\
    shas (t_pend t) sig || shas (n_pend r) sig = true /\ shas (t_mask t) sig = false /\
    sa_h (act_of r sig) = HDfl.

(** SIGSTOP, SIGTSTP, SIGTTIN, SIGTTOU and SIGCONT *)
Definition stop_or_cont (sig : Z) : Prop := In sig [18; 19; 20; 21; 22].

Definition waits_blocked (h : host) (pid tid : Z) (c : call) : Prop :=
  exists t k, thr_of h pid tid = Some t /\ t_st t = TBlk k /\ c_call k = c.

Definition task_fault (h : host) (t : task) : Prop :=
  match t with
  | TkResume pid tid | TkWake pid tid _ _ =>
      exists c, waits_blocked h pid tid c /\ call_fault h pid c
  | TkExec pid tid =>
      (* the thread that called exec has gone, or a thread waits for children *)
      (exists r, run_of h pid = Some r /\ get tid (n_thr r) = None) \/
      (exists x t k, thr_of h pid x = Some t /\ t_st t = TBlk k /\ c_trig k = TrChild)
  end.

Definition step_fault (h : host) (x : op) : Prop :=
  match h_cur h, x with
  | Some (pid, tid, MApp), PCall c _ => call_fault h pid c
  | Some (pid, tid, MSig rt _), PLoop _ =>
      (exists sig, takes_default h pid tid sig /\ (stop_or_cont sig \/ rt_links h pid)) \/
      (exists c, r_call rt = Some c /\ call_fault h pid c)
  | None, PTask _ _ => exists t ts, h_tasks h = t :: ts /\ task_fault h t
  | _, _ => False
  end.
