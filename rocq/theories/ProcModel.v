(** Model of the processes, threads and signals of one host.

    Sources (all paths below src/):
    - lib/linux-api/src/signal.rs: signal numbers 19-134, [sigset_t] 827-957,
      [SignalHandler] and [sigaction] 962-1190, [defaultaction] 1192-1250
    - lib/shadow-shim-helper-rs/src/shim_shmem.rs 183-440: pending signals,
      blocked mask and taking the next signal
    - lib/shim/src/signals.rs 103-344 ([process_signals]), 346-380 (hardware
      faults); lib/shim/src/syscall.rs 58-160 (when signals are processed and a
      call is restarted)
    - main/host/process.rs: [interrupt_with_signal] 483-507, [signal] 509-570,
      [new_forked_process] 587-680, [ZombieProcess] 697-824, timers 890-906,
      [spawn] 954-1150, [resume] 1219-1306, [handle_process_exit] 1498-1608,
      [update_for_exec] 1766-1858
    - main/host/host.rs: spawn and shutdown signal 361-428, [resume] 446-542,
      thread lookup 832-844 and 1208-1232, thread ids 680-684, sessions 971-980
    - main/host/thread.rs: [update_for_exec] 83-165, [wrap_mthread] 468-510,
      [resume] 513-572, [unblocked_signal_pending] 575-597
    - main/host/managed_thread.rs [resume] 187-329
    - main/host/syscall/handler/: signal.rs, wait.rs, clone.rs, unistd.rs
      537-697, 699-838 and 886-897, prctl.rs 86-101, mod.rs 118-330
    - main/host/syscall/syscall_condition.c (blocked calls and their wakeup)

    A host runs one thread at a time.  The model is a machine whose steps are: run
    the next scheduled task, the current thread makes a call, one turn of the loop
    that processes signals, a handler returns, and events from outside (a timer,
    readiness of a file, the start or shutdown of a configured process).

    Simplifications.  Pointers given by the application are valid (no EFAULT) and
    the native calls that Shadow makes succeed; calls that are not about processes
    are one call [Io] whose outcome is an input; sa_flags, wait flags and clone
    flags are records of booleans; si_uid, user times, descriptor tables, memory,
    futexes and the CPU latency that may yield after a call are not modelled;
    scheduled tasks run in the order in which they were scheduled, which is the
    order of events of equal time on a host (EventModel), and events from outside
    may come between any two of them.  The end of the simulation, which kills all
    processes, is not modelled. *)
From Verif Require Import Base FMap BTree.

(** * Signal sets (linux-api/src/signal.rs:827-957): 64 bits, signal [s] is bit [s-1] *)

(* From<Signal> for sigset_t, signal.rs:861-868 *)
Definition sbit (sig : Z) : Z := Z.shiftl 1 (sig - 1).
(* has, signal.rs:831-833 *)
Definition shas (s sig : Z) : bool := negb (Z.land s (sbit sig) =? 0).
(* add, signal.rs:856-858 *)
Definition sadd (s sig : Z) : Z := Z.lor s (sbit sig).
(* del, signal.rs:852-854 *)
Definition sdrop (s sig : Z) : Z := Z.ldiff s (sbit sig).
(* a & !b, signal.rs:909-948 *)
Definition sminus (a b : Z) : Z := Z.ldiff a b.
(* the signals 1..=64 in order *)
Definition all_sigs : list Z := map Z.of_nat (seq 1 64).
(* lowest, signal.rs:835-846; [None] also stands for its unreachable!() *)
Definition slowest (s : Z) : option Z := if s =? 0 then None else find (shas s) all_sigs.
(* a set read from the memory of the application is 64 bits wide *)
Definition rd_set (s : Z) : Z := Z.land s U64_MAX.

Definition SIGKILL : Z := 9.
Definition SIGSEGV : Z := 11.
Definition SIGALRM : Z := 14.
Definition SIGCHLD : Z := 17.
Definition SIGCONT : Z := 18.
Definition SIGSTOP : Z := 19.
(* STANDARD_MAX, signal.rs:75 *)
Definition STD_MAX : Z := 31.
(* TryFrom<i32> for Signal, signal.rs:24-34 *)
Definition is_sig (s : Z) : bool := (1 <=? s) && (s <=? 64).
(* is_realtime, signal.rs:90-92 *)
Definition is_rt (s : Z) : bool := (32 <=? s) && (s <=? 64).

Inductive dact := DTerm | DIgn | DCore | DStop | DCont.
(* defaultaction, signal.rs:1203-1250 *)
Definition defaultaction (s : Z) : dact :=
  if s =? SIGCONT then DCont
  else if existsb (Z.eqb s) [6; 7; 8; 4; 3; 11; 31; 5; 24; 25] then DCore
  else if existsb (Z.eqb s) [17; 23; 28] then DIgn
  else if existsb (Z.eqb s) [19; 20; 21; 22] then DStop
  else DTerm.

(** * Actions, siginfo, alternate stacks *)

Inductive hnd := HIgn | HDfl | HFun (f : Z).

(* sigaction, signal.rs:1040-1190 *)
Record sact := mkAct {
  sa_h : hnd; sa_nodefer : bool; sa_resethand : bool; sa_restart : bool;
  sa_onstack : bool; sa_mask : Z }.

(* sigaction::default(), and the action that SA_RESETHAND and exec install *)
Definition act_default : sact := mkAct HDfl false false false false 0.

Definition is_ignore (a : sact) : bool := match sa_h a with HIgn => true | _ => false end.
Definition is_default (a : sact) : bool := match sa_h a with HDfl => true | _ => false end.

(* the test in process.rs:530-543 and handler/signal.rs:193-206 *)
Definition ignored (a : sact) (sig : Z) : bool :=
  match sa_h a with
  | HIgn => true
  | HDfl => match defaultaction sig with DIgn => true | _ => false end
  | HFun _ => false
  end.

(** The part of siginfo_t after si_signo. *)
Inductive scode :=
| SiUser (pid : Z) | SiTkill (pid : Z) | SiTimer (n : Z)
| CldExited (pid code : Z) | CldKilled (pid sig : Z) | SiFault (n : Z).
Record sinfo := mkInfo { si_sig : Z; si_code : scode }.
Definition info_default : sinfo := mkInfo 0 (SiUser 0).

(* stack_t *)
Record stk := mkStk {
  ss_sp : Z; ss_size : Z; ss_disable : bool; ss_onstack : bool; ss_autodisarm : bool;
  ss_other : bool }.
Definition stk_none : stk := mkStk 0 0 true false false false.

(** * Calls *)

(* WaitFlags, linux-api/src/wait.rs:7-22; [w_other]: bits that are not flags *)
Record wflags := mkW {
  w_nohang : bool; w_exited : bool; w_nowait : bool; w_all : bool; w_clone : bool;
  w_other : bool }.

Inductive wid := PAll | PPid | PPgid | PPidfd | PBad.

(* CloneFlags; [cf_other]: a flag that clone_internal does not handle *)
Record cflags := mkC {
  cf_thread : bool; cf_sighand : bool; cf_vm : bool; cf_vfork : bool; cf_settls : bool;
  cf_parent : bool; cf_clear : bool; cf_other : bool }.

Inductive call :=
| Kill (pid sig : Z)
| Tkill (tid sig : Z)
| Tgkill (tgid tid sig : Z)
| Sigaction (sig : Z) (act : option sact)
| Sigprocmask (how : Z) (set : option Z)
| Sigaltstack (ss : option stk)
| Clone (fl : cflags) (exit_signal : Z)
| Exit (code : Z)
| ExitGroup (code : Z)
| Execve (found : bool)
| Wait4 (pid : Z) (fl : wflags)
| Waitid (which : wid) (id : Z) (fl : wflags)
| Getpid | Getppid | Gettid | Getpgrp
| Getpgid (pid : Z) | Setpgid (pid pgid : Z) | Getsid (pid : Z) | Setsid
| SetPdeathsig (sig : Z)
| Io (restartable : bool).

(* errno values, linux-api/src/errno.rs *)
Definition EPERM := 1.   Definition ENOENT := 2.  Definition ESRCH := 3.
Definition EINTR := 4.   Definition ECHILD := 10. Definition EINVAL := 22.
Definition ENOTSUP := 95.
(* ProcessId::INIT, process.rs:66 *)
Definition INIT : Z := 1.
Definition I32_MIN : Z := -2147483648.
Definition I32_MAX : Z := 2147483647.

(** * State *)

(** What a call that has completed in Shadow tells the shim; [r_call] is the
    call, [None] for the return of fork in the child and for a fault. *)
Record ret := mkRet { r_val : Z; r_rs : bool; r_call : option call }.

(** A handler in progress: the locals of process_signals while the handler runs. *)
Record frame := mkFrame { f_sig : Z; f_mask : Z; f_stk : stk; f_ret : ret; f_all : bool }.

(** What the current thread does: application code, or the loop of process_signals
    after the call [r], [all] being the variable [restartable]. *)
Inductive mode := MApp | MSig (r : ret) (all : bool).

Inductive trig := TrChild | TrExec | TrOther.

(** SysCallCondition: [c_sched] is wakeupScheduled. *)
Record cnd := mkCnd { c_id : Z; c_trig : trig; c_sched : bool; c_call : call }.

Inductive tst :=
| TNew (forked : bool)   (** has not run yet: no condition *)
| TRun                   (** the thread that runs: no condition *)
| TBlk (c : cnd).        (** blocked in a call *)

(** Thread and ThreadShmemProtected *)
Record thr := mkThr {
  t_mask : Z; t_pend : Z; t_infos : fmap Z sinfo; t_stk : stk;
  t_frames : list frame; t_st : tst }.

Inductive status := Exited (code : Z) | Signaled (sig : Z).

(** RunnableProcess and ProcessShmemProtected; [n_lst]: the conditions that listen
    for events of children, as thread and condition; [n_code]: exit code of the
    thread group leader once it has exited. *)
Record run := mkRun {
  n_pend : Z; n_infos : fmap Z sinfo; n_acts : fmap Z sact;
  n_thr : fmap Z thr; n_lst : list (Z * Z); n_code : Z }.

Inductive pst := PRun (r : run) | PZom (s : status).

(** Process and Common *)
Record proc := mkProc {
  p_par : Z; p_pgid : Z; p_sid : Z; p_exs : option Z; p_pdeath : option Z; p_st : pst }.

(** Tasks scheduled without delay. *)
Inductive task :=
| TkResume (pid tid : Z)                      (** process.rs:581-584, host.rs:440-443 *)
| TkWake (pid tid cid : Z) (tr : trig)        (** syscall_condition.c:429-457 *)
| TkExec (pid tid : Z).                       (** handler/unistd.rs:801-829 *)

Record host := mkHost {
  h_procs : fmap Z proc; h_next : Z; h_cid : Z; h_tasks : list task;
  h_cur : option (Z * Z * mode) }.

(* host.rs:245: thread ids start at 1000 *)
Definition host_new : host := mkHost [] 1000 0 [] None.

(** * What is observed *)

(** Signals are directed at a process or at a thread. *)
Inductive dest := DPr (pid : Z) | DTh (pid tid : Z).

Inductive obs :=
| OQueue (d : dest) (i : sinfo)               (** a signal becomes pending *)
| OTake (pid tid : Z) (d : dest) (i : sinfo)  (** a thread takes a pending signal *)
| OHandler (pid tid sig : Z) (i : sinfo) (f : Z)   (** a handler starts *)
| OCall (pid tid : Z) (c : call)              (** a call is made, or made again *)
| ORet (pid tid : Z) (c : call) (v : Z)       (** a call returns to the application *)
| OBorn (pid par : Z)                         (** a process is created *)
| ODied (pid : Z) (s : status)                (** a process ends *)
| OReap (par pid : Z) (s : status)            (** a wait call reports an ended child *)
| OFreed (pid : Z)                            (** an ended process is removed without report *)
| OExec (pid tid : Z).                        (** a thread becomes the only thread of its process *)

(** * Small accessors *)

Definition set_procs h x := mkHost x (h_next h) (h_cid h) (h_tasks h) (h_cur h).
Definition set_cur h x := mkHost (h_procs h) (h_next h) (h_cid h) (h_tasks h) x.
Definition set_tasks h x := mkHost (h_procs h) (h_next h) (h_cid h) x (h_cur h).
Definition add_task h t := set_tasks h (h_tasks h ++ [t]).

Definition put_proc h pid p := set_procs h (bput pid p (h_procs h)).
Definition del_proc h pid := set_procs h (del pid (h_procs h)).

Definition set_par p x := mkProc x (p_pgid p) (p_sid p) (p_exs p) (p_pdeath p) (p_st p).
Definition set_pgid p x := mkProc (p_par p) x (p_sid p) (p_exs p) (p_pdeath p) (p_st p).
Definition set_sid p x := mkProc (p_par p) (p_pgid p) x (p_exs p) (p_pdeath p) (p_st p).
Definition set_exs p x := mkProc (p_par p) (p_pgid p) (p_sid p) x (p_pdeath p) (p_st p).
Definition set_pdeath p x := mkProc (p_par p) (p_pgid p) (p_sid p) (p_exs p) x (p_st p).
Definition set_pst p x := mkProc (p_par p) (p_pgid p) (p_sid p) (p_exs p) (p_pdeath p) x.

Definition set_npend r x y := mkRun x y (n_acts r) (n_thr r) (n_lst r) (n_code r).
Definition set_nacts r x := mkRun (n_pend r) (n_infos r) x (n_thr r) (n_lst r) (n_code r).
Definition set_nthr r x := mkRun (n_pend r) (n_infos r) (n_acts r) x (n_lst r) (n_code r).
Definition set_nlst r x := mkRun (n_pend r) (n_infos r) (n_acts r) (n_thr r) x (n_code r).
Definition set_ncode r x := mkRun (n_pend r) (n_infos r) (n_acts r) (n_thr r) (n_lst r) x.

Definition set_tmask t x := mkThr x (t_pend t) (t_infos t) (t_stk t) (t_frames t) (t_st t).
Definition set_tpend t x y := mkThr (t_mask t) x y (t_stk t) (t_frames t) (t_st t).
Definition set_tstk t x := mkThr (t_mask t) (t_pend t) (t_infos t) x (t_frames t) (t_st t).
Definition set_tframes t x := mkThr (t_mask t) (t_pend t) (t_infos t) (t_stk t) x (t_st t).
Definition set_tst t x := mkThr (t_mask t) (t_pend t) (t_infos t) (t_stk t) (t_frames t) x.

Definition run_of (h : host) (pid : Z) : option run :=
  match get pid (h_procs h) with
  | Some p => match p_st p with PRun r => Some r | PZom _ => None end
  | None => None
  end.
Definition thr_of (h : host) (pid tid : Z) : option thr :=
  match run_of h pid with Some r => get tid (n_thr r) | None => None end.

Definition put_run (h : host) (pid : Z) (r : run) : host :=
  match get pid (h_procs h) with
  | Some p => put_proc h pid (set_pst p (PRun r))
  | None => h
  end.
Definition put_thr (h : host) (pid tid : Z) (t : thr) : host :=
  match run_of h pid with
  | Some r => put_run h pid (set_nthr r (bput tid t (n_thr r)))
  | None => h
  end.

(* signal_action, shim_shmem.rs:263-270 *)
Definition act_of (r : run) (sig : Z) : sact :=
  match get sig (n_acts r) with Some a => a | None => act_default end.

Definition info_of (m : fmap Z sinfo) (sig : Z) : sinfo :=
  match get sig m with Some i => i | None => info_default end.

(** * Threads are found by id *)

(* host.rs:832-844: the first process, in the order of their ids, that has the thread *)
Fixpoint find_thread (ps : fmap Z proc) (tid : Z) : option (Z * thr) :=
  match ps with
  | [] => None
  | (pid, p) :: ps' =>
      match p_st p with
      | PRun r => match get tid (n_thr r) with
                  | Some t => Some (pid, t)
                  | None => find_thread ps' tid
                  end
      | PZom _ => find_thread ps' tid
      end
  end.

(* host.rs:1208-1232, used by wakeupForSignal: while the process [dying] ends, its
   state is borrowed mutably (process.rs:1518) and looking into it panics; the
   caller dereferences the result *)
Fixpoint c_find_thread (ps : fmap Z proc) (dying : option Z) (tid : Z) : option thr :=
  match ps with
  | [] => None
  | (pid, p) :: ps' =>
      check negb (match dying with Some d => d =? pid | None => false end);
      match p_st p with
      | PRun r => match get tid (n_thr r) with
                  | Some t => Some t
                  | None => c_find_thread ps' dying tid
                  end
      | PZom _ => c_find_thread ps' dying tid
      end
  end.

(** * Waking a blocked thread *)

(* _syscallcondition_scheduleWakeupTask, syscall_condition.c:429-457 *)
Definition sched_wake (h : host) (pid tid : Z) : host :=
  match thr_of h pid tid with
  | Some t =>
      match t_st t with
      | TBlk c =>
          if c_sched c then h
          else add_task (put_thr h pid tid
                           (set_tst t (TBlk (mkCnd (c_id c) (c_trig c) true (c_call c)))))
                        (TkWake pid tid (c_id c) (c_trig c))
      | _ => h
      end
  | None => h
  end.

(* syscallcondition_wakeupForSignal, syscall_condition.c:577-595; the result tells whether
   the wakeup is scheduled *)
Definition wake_for_signal (h : host) (dying : option Z) (pid tid sig : Z)
    : option (host * bool) :=
  do t <- c_find_thread (h_procs h) dying tid;
  if shas (t_mask t) sig then Some (h, false) else Some (sched_wake h pid tid, true).

(** * Sending a signal to a process *)

(* the loop of interrupt_with_signal, process.rs:485-506 *)
Fixpoint interrupt (h : host) (dying : option Z) (pid sig : Z) (ts : fmap Z thr) : option host :=
  match ts with
  | [] => Some h
  | (tid, t) :: ts' =>
      if shas (t_mask t) sig then interrupt h dying pid sig ts'
      else match t_st t with
           | TBlk _ => do (h, _) <- wake_for_signal h dying pid tid sig; Some h
           | _ => interrupt h dying pid sig ts'
           end
  end.

(* RunnableProcess::signal, process.rs:518-570; [cur] is current_thread *)
Definition signal_run (h : host) (dying : option Z) (pid : Z) (cur : option (Z * Z))
    (i : sinfo) : option (host * list obs) :=
  match run_of h pid with
  | None => Some (h, [])           (* Process::signal, process.rs:1343-1351: a zombie *)
  | Some r =>
      let sig := si_sig i in
      if ignored (act_of r sig) sig then Some (h, [])
      else if shas (n_pend r) sig then Some (h, [])
      else
        (* set_pending_standard_siginfo indexes an array of 31 *)
        check sig <=? STD_MAX;
        let h := put_run h pid (set_npend r (sadd (n_pend r) sig) (put sig i (n_infos r))) in
        let obs := [OQueue (DPr pid) i] in
        let here := match cur with
                    | Some (cp, ct) =>
                        (cp =? pid) && match thr_of h cp ct with
                                       | Some t => negb (shas (t_mask t) sig)
                                       | None => false
                                       end
                    | None => false
                    end in
        if here then Some (h, obs)
        else do h <- interrupt h dying pid sig (n_thr r); Some (h, obs)
  end.

(** * Sending a signal to a thread: handler/signal.rs:155-250, without the checks of the number *)
Definition signal_thread (h : host) (from : Z * Z) (pid tid : Z) (i : sinfo)
    : option (host * list obs) :=
  do r <- run_of h pid;
  do t <- get tid (n_thr r);
  let sig := si_sig i in
  if ignored (act_of r sig) sig then Some (h, [])
  else if shas (t_pend t) sig then Some (h, [])
  else
    check sig <=? STD_MAX;
    let t := set_tpend t (sadd (t_pend t) sig) (put sig i (t_infos t)) in
    let h := put_thr h pid tid t in
    let obs := [OQueue (DTh pid tid) i] in
    if (snd from =? tid) || shas (t_mask t) sig then Some (h, obs)
    else match t_st t with
         | TBlk _ => do (h, woken) <- wake_for_signal h None pid tid sig;
                     check woken; Some (h, obs)
         | _ => Some (h, obs)
         end.

(** * End of a process *)

(* exit_siginfo, process.rs:794-823 *)
Definition exit_info (sig pid : Z) (s : status) : sinfo :=
  match s with
  | Exited c => mkInfo sig (CldExited pid c)
  | Signaled k => mkInfo sig (CldKilled pid k)
  end.

(* the legacy listeners of child_process_event_listeners, each of which schedules
   the wakeup of its condition *)
Definition wake_child_waiters (h : host) (pid : Z) (l : list (Z * Z)) : host :=
  fold_left (fun h e => sched_wake h pid (fst e)) l h.

(* notify_parent_of_exit, process.rs:751-790 *)
Definition notify_parent (h : host) (pid : Z) (s : status) : option (host * list obs) :=
  do p <- get pid (h_procs h);
  match p_exs p with
  | None => Some (h, [])
  | Some es =>
      if p_par p =? INIT then Some (h, [])
      else match get (p_par p) (h_procs h) with
           | None => Some (h, [])
           | Some pp =>
               match p_st pp with
               | PZom _ => None   (* warn_and_debug_panic *)
               | PRun r =>
                   do (h, o) <- signal_run h (Some pid) (p_par p) None (exit_info es pid s);
                   Some (wake_child_waiters h (p_par p) (n_lst r), o)
               end
           end
  end.

(* reaper, process.rs:714-749 *)
Definition has_reaper (h : host) (p : proc) : option bool :=
  if p_par p =? INIT then Some false
  else match get (p_par p) (h_procs h) with
       | None => Some false
       | Some pp =>
           match p_exs p with
           | None => Some true
           | Some es =>
               (* parent.shmem() unwraps the runnable state *)
               match p_st pp with
               | PZom _ => None
               | PRun r => Some (negb (is_ignore (act_of r es)))
               end
           end
       end.

Definition is_zombie (p : proc) : bool := match p_st p with PZom _ => true | PRun _ => false end.

(* host.rs:499-526, for one child *)
Definition orphan (pid : Z) (ho : host * list obs) (child : Z) : option (host * list obs) :=
  let (h, o) := ho in
  match get child (h_procs h) with
  | None => Some (h, o)
  | Some p =>
      do (h, o') <- match p_pdeath p with
                    | Some s => signal_run h None child None (mkInfo s (SiUser pid))
                    | None => Some (h, [])
                    end;
      match get child (h_procs h) with
      | None => Some (h, o ++ o')
      | Some p => Some (put_proc h child (set_par p INIT), o ++ o')
      end
  end.

Fixpoint orphans (pid : Z) (ho : host * list obs) (l : list Z) : option (host * list obs) :=
  match l with
  | [] => Some ho
  | c :: l' => do ho <- orphan pid ho c; orphans pid ho l'
  end.

Definition children (h : host) (pid : Z) : list Z :=
  map fst (filter (fun e => p_par (snd e) =? pid) (h_procs h)).

(* host.rs:533-541 *)
Definition free_zombies (h : host) (l : list Z) : host * list obs :=
  (fold_left del_proc l h, map OFreed l).

(* handle_process_exit (process.rs:1498-1608) and the rest of Host::resume
   (host.rs:464-541) *)
Definition end_process (h : host) (pid : Z) (s : status) : option (host * list obs) :=
  let h := set_cur h None in
  do (h, o1) <- notify_parent h pid s;
  do p <- get pid (h_procs h);
  let p := set_pst p (PZom s) in
  let h := put_proc h pid p in
  do reaped <- has_reaper h p;
  let cs := children h pid in
  do (h, o2) <- orphans pid (h, []) cs;
  let zs := filter (fun c => match get c (h_procs h) with
                             | Some p => is_zombie p | None => false end) cs in
  let (h, o3) := free_zombies h (zs ++ (if reaped then [] else [pid])) in
  Some (h, o1 ++ [ODied pid s] ++ o2 ++ o3).

(** * The handlers *)

Inductive hres :=
| RDone (v : Z) (restartable : bool)
| RBlock (tr : trig) (restartable : bool)
| RExitThread (code : Z)
| RExitGroup (code : Z).

Definition done (v : Z) : hres := RDone v false.
Definition err (e : Z) : hres := RDone (- e) false.

(* handler/signal.rs:68-92 *)
Definition signal_process (h : host) (me : Z * Z) (target sig : Z)
    : option (host * list obs * hres) :=
  if sig =? 0 then Some (h, [], done 0)
  else if negb (is_sig sig) then Some (h, [], err EINVAL)
  else if is_rt sig then Some (h, [], err ENOTSUP)
  else do (h, o) <- signal_run h None target (Some me) (mkInfo sig (SiUser (fst me)));
       Some (h, o, done 0).

(* handler/signal.rs:20-64; in a release build the negation of the least i32 wraps *)
Definition do_kill (h : host) (me : Z * Z) (pid sig : Z) : option (host * list obs * hres) :=
  if pid =? -1 then Some (h, [], err ENOTSUP)
  else if pid =? I32_MIN then Some (h, [], err ESRCH)
  else
    let target := if pid =? 0 then fst me else if pid <? -1 then - pid else pid in
    match get target (h_procs h) with
    | None => Some (h, [], err ESRCH)
    | Some _ => signal_process h me target sig
    end.

(* handler/signal.rs:100-169; [tgid] is None for tkill *)
Definition do_tkill (h : host) (me : Z * Z) (tgid : option Z) (tid sig : Z)
    : option (host * list obs * hres) :=
  if (tid <? 0) || match tgid with Some g => g <? 0 | None => false end
  then Some (h, [], err ESRCH)
  else match find_thread (h_procs h) tid with
       | None => Some (h, [], err ESRCH)
       | Some (pid, t) =>
           if match tgid with Some g => negb (g =? pid) | None => false end
           then Some (h, [], err ESRCH)
           else if sig =? 0 then Some (h, [], done 0)
           else if negb (is_sig sig) then Some (h, [], err EINVAL)
           else if is_rt sig then Some (h, [], err ENOTSUP)
           else do (h, o) <- signal_thread h me pid tid (mkInfo sig (SiTkill (fst me)));
                Some (h, o, done 0)
       end.

Definition rd_act (a : sact) : sact :=
  mkAct (sa_h a) (sa_nodefer a) (sa_resethand a) (sa_restart a) (sa_onstack a)
        (rd_set (sa_mask a)).

(* handler/signal.rs:259-311 *)
Definition do_sigaction (h : host) (pid sig : Z) (act : option sact) : option (host * hres) :=
  if negb (is_sig sig) then Some (h, err EINVAL)
  else match act with
       | None => Some (h, done 0)
       | Some a =>
           if (sig =? SIGKILL) || (sig =? SIGSTOP) then Some (h, err EINVAL)
           else do r <- run_of h pid;
                Some (put_run h pid (set_nacts r (put sig (rd_act a) (n_acts r))), done 0)
       end.

(* handler/signal.rs:317-369 *)
Definition do_sigprocmask (h : host) (pid tid how : Z) (set : option Z) : option (host * hres) :=
  match set with
  | None => Some (h, done 0)
  | Some s =>
      do t <- thr_of h pid tid;
      let s := rd_set s in
      let cur := t_mask t in
      if how =? 0 then Some (put_thr h pid tid (set_tmask t (Z.lor s cur)), done 0)
      else if how =? 1 then Some (put_thr h pid tid (set_tmask t (sminus cur s)), done 0)
      else if how =? 2 then Some (put_thr h pid tid (set_tmask t s), done 0)
      else Some (h, err EINVAL)
  end.

(* handler/signal.rs:371-427 *)
Definition do_sigaltstack (h : host) (pid tid : Z) (ss : option stk) : option (host * hres) :=
  match ss with
  | None => Some (h, done 0)
  | Some s =>
      do t <- thr_of h pid tid;
      if ss_onstack (t_stk t) then Some (h, err EPERM)
      else
        let s := if ss_disable s then stk_none else s in
        if ss_onstack s || ss_other s then Some (h, err EINVAL)
        else Some (put_thr h pid tid (set_tstk t s), done 0)
  end.

(* Thread::wrap_mthread, thread.rs:468-510, with ThreadShmem::new, shim_shmem.rs:308-330 *)
Definition thr_new (forked : bool) : thr := mkThr 0 0 [] stk_none [] (TNew forked).

(* handler/clone.rs:19-262 and 281-307; [fork] is Clone of no flags with SIGCHLD *)
Definition do_clone (h : host) (pid : Z) (fl : cflags) (raw : Z)
    : option (host * list obs * hres) :=
  let ret e := Some (h, [], err e) in
  if negb (raw =? 0) && negb (is_sig raw) then ret EINVAL
  else
  let exs := if raw =? 0 then None else Some raw in
  if cf_thread fl && negb (cf_sighand fl) then ret EINVAL
  else if cf_thread fl && negb (cf_settls fl) then ret ENOTSUP
  else if cf_thread fl && negb (raw =? 0) then ret ENOTSUP
  else if cf_sighand fl && negb (cf_vm fl) then ret EINVAL
  else if cf_vm fl && negb (cf_thread fl) && negb (cf_vfork fl) then ret ENOTSUP
  else if cf_clear fl && cf_sighand fl then ret EINVAL
  else if cf_other fl then ret ENOTSUP
  else
  do p <- get pid (h_procs h);
  do r <- run_of h pid;
  let id := h_next h in
  let h := mkHost (h_procs h) (id + 1) (h_cid h) (h_tasks h) (h_cur h) in
  if cf_thread fl then
    Some (add_task (put_run h pid (set_nthr r (bput id (thr_new false) (n_thr r))))
                   (TkResume pid id), [], done id)
  else
    let acts := if cf_clear fl || cf_sighand fl then [] else n_acts r in
    let par := if cf_parent fl then p_par p else pid in
    let c := mkProc par (p_pgid p) (p_sid p) exs None
                    (PRun (mkRun 0 [] acts [(id, thr_new true)] [] 0)) in
    Some (add_task (put_proc h id c) (TkResume id id), [OBorn id par], done id).

(** ** Waiting for children: handler/wait.rs *)

Inductive wtarget := WPid (p : Z) | WPgid (p : Z) | WAny.

(* wait.rs:76-96, with the type of the exit signal in place of is_clone_child *)
Definition wmatches (me : Z) (t : wtarget) (fl : wflags) (pid : Z) (p : proc) : bool :=
  (p_par p =? me) &&
  match t with WPid x => pid =? x | WPgid g => p_pgid p =? g | WAny => true end &&
  let clone_child := negb (match p_exs p with Some s => s =? SIGCHLD | None => false end) in
  if w_all fl then true else if w_clone fl then clone_child else negb clone_child.

(* wait.rs:76-194; [idr]: waitid returns 0 instead of the pid *)
Definition wait_internal (h : host) (me : Z) (t : wtarget) (fl : wflags) (idr : bool)
    : option (host * list obs * hres) :=
  let ms := filter (fun e => wmatches me t fl (fst e) (snd e)) (h_procs h) in
  match ms with
  | [] => Some (h, [], err ECHILD)
  | _ =>
      let block := if w_nohang fl then Some (h, [], done 0)
                   else Some (h, [], RBlock TrChild true) in
      if negb (w_exited fl) then block
      else match filter (fun e => is_zombie (snd e)) ms with
           | [] => block
           | (c, p) :: _ =>
               match p_st p with
               | PRun _ => None   (* not reachable: the filter *)
               | PZom s =>
                   let h := if w_nowait fl then h else del_proc h c in
                   Some (h, (if w_nowait fl then [] else [OReap me c s]),
                         done (if idr then 0 else c))
               end
           end
  end.

(* from_waitpid_pid, wait.rs:32-53; [None]: the unwrap of the converted negation *)
Definition waitpid_target (pgid pid : Z) : option wtarget :=
  if pid =? -1 then Some WAny
  else if pid <? 0 then (check negb (pid =? I32_MIN); Some (WPgid (- pid)))
  else if pid =? 0 then Some (WPgid pgid)
  else Some (WPid pid).

(* wait4, wait.rs:203-235 *)
Definition do_wait4 (h : host) (me : Z) (pid : Z) (fl : wflags) : option (host * list obs * hres) :=
  if w_other fl || w_exited fl || w_nowait fl then Some (h, [], err EINVAL)
  else
    do p <- get me (h_procs h);
    do t <- waitpid_target (p_pgid p) pid;
    wait_internal h me t (mkW (w_nohang fl) true false (w_all fl) (w_clone fl) false) false.

(* waitid, wait.rs:246-268, and from_waitid, wait.rs:55-74 *)
Definition do_waitid (h : host) (me : Z) (which : wid) (id : Z) (fl : wflags)
    : option (host * list obs * hres) :=
  do p <- get me (h_procs h);
  match which with
  | PBad => Some (h, [], err EINVAL)
  | PAll => wait_internal h me WAny fl true
  | PPid => if id <? 0 then Some (h, [], err ECHILD) else wait_internal h me (WPid id) fl true
  | PPgid => if id <? 0 then Some (h, [], err ECHILD)
             else wait_internal h me (WPgid (if id =? 0 then p_pgid p else id)) fl true
  | PPidfd =>
      (* matches() of a pidfd is unimplemented!(): reached for the first child of the caller *)
      if existsb (fun e => p_par (snd e) =? me) (h_procs h) then None
      else Some (h, [], err ECHILD)
  end.

(** ** Groups and sessions: handler/unistd.rs:537-697 *)

(* process_session_id_of_group_id, host.rs:971-980 *)
Definition sid_of_group (h : host) (g : Z) : option Z :=
  match find (fun e => p_pgid (snd e) =? g) (h_procs h) with
  | Some e => Some (p_sid (snd e))
  | None => None
  end.

Definition opt_eqb (a : option Z) (b : Z) : bool :=
  match a with Some x => x =? b | None => false end.

Definition do_getpgid (h : host) (me : Z) (pid : Z) : option (host * hres) :=
  do p <- get me (h_procs h);
  if (pid =? 0) || (pid =? me) then Some (h, done (p_pgid p))
  else if pid <? 0 then Some (h, err EINVAL)
  else match get pid (h_procs h) with
       | None => Some (h, err ESRCH)
       | Some q => Some (h, done (p_pgid q))
       end.

Definition do_getsid (h : host) (me : Z) (pid : Z) : option (host * hres) :=
  do p <- get me (h_procs h);
  if pid =? 0 then Some (h, done (p_sid p))
  else if pid <? 0 then Some (h, err EINVAL)
  else match get pid (h_procs h) with
       | None => Some (h, err ESRCH)
       | Some q => Some (h, done (p_sid q))
       end.

(* setpgid, unistd.rs:577-647 *)
Definition do_setpgid (h : host) (me : Z) (pid pgid : Z) : option (host * hres) :=
  do p <- get me (h_procs h);
  let ret e := Some (h, err e) in
  if negb ((pid =? 0) || (pid =? me)) && (pid <? 0) then ret EINVAL
  else
  let target := if (pid =? 0) || (pid =? me) then me else pid in
  match get target (h_procs h) with
  | None => ret ESRCH
  | Some q =>
      if pgid <? 0 then ret EINVAL
      else if negb (target =? me) && negb (p_par q =? me) then ret ESRCH
      else if negb (pgid =? 0) && negb (opt_eqb (sid_of_group h pgid) (p_sid q)) then ret EPERM
      else if negb (p_sid q =? p_sid p) then ret EPERM
      else if p_sid q =? target then ret EPERM
      else Some (put_proc h target (set_pgid q (if pgid =? 0 then target else pgid)), done 0)
  end.

(* setsid, unistd.rs:678-697 *)
Definition do_setsid (h : host) (me : Z) : option (host * hres) :=
  do p <- get me (h_procs h);
  match sid_of_group h me with
  | Some _ => Some (h, err EPERM)
  | None => Some (put_proc h me (set_pgid (set_sid p me) me), done me)
  end.

(* prctl(PR_SET_PDEATHSIG), prctl.rs:86-95 *)
Definition do_pdeath (h : host) (me sig : Z) : option (host * hres) :=
  do p <- get me (h_procs h);
  if sig =? 0 then Some (put_proc h me (set_pdeath p None), done 0)
  else if is_sig sig then Some (put_proc h me (set_pdeath p (Some sig)), done 0)
  else Some (h, err EINVAL).

Definition noobs (x : option (host * hres)) : option (host * list obs * hres) :=
  do (h, r) <- x; Some (h, [], r).

(** The handler of a call of thread [tid] of process [pid].  [io]: the outcome of
    [Io] this time, [None] when it would block. *)
Definition handle (h : host) (pid tid : Z) (c : call) (io : option Z)
    : option (host * list obs * hres) :=
  let me := (pid, tid) in
  match c with
  | Kill p s => do_kill h me p s
  | Tkill t s => do_tkill h me None t s
  | Tgkill g t s => do_tkill h me (Some g) t s
  | Sigaction s a => noobs (do_sigaction h pid s a)
  | Sigprocmask how s => noobs (do_sigprocmask h pid tid how s)
  | Sigaltstack s => noobs (do_sigaltstack h pid tid s)
  | Clone fl s => do_clone h pid fl s
  | Exit code => Some (h, [], RExitThread code)
  | ExitGroup code => Some (h, [], RExitGroup code)
  | Execve found =>
      if found then Some (add_task h (TkExec pid tid), [], RBlock TrExec false)
      else Some (h, [], err ENOENT)
  | Wait4 p fl => do_wait4 h pid p fl
  | Waitid w i fl => do_waitid h pid w i fl
  | Getpid => Some (h, [], done pid)
  | Gettid => Some (h, [], done tid)
  | Getppid => do p <- get pid (h_procs h); Some (h, [], done (p_par p))
  | Getpgrp => do p <- get pid (h_procs h); Some (h, [], done (p_pgid p))
  | Getpgid p => noobs (do_getpgid h pid p)
  | Setpgid p g => noobs (do_setpgid h pid p g)
  | Getsid p => noobs (do_getsid h pid p)
  | Setsid => noobs (do_setsid h pid)
  | SetPdeathsig s => noobs (do_pdeath h pid s)
  | Io rs => match io with
             | Some v => Some (h, [], done v)
             | None => Some (h, [], RBlock TrOther rs)
             end
  end.

(** * A call *)

(* thread.rs:575-597 *)
Definition sig_ready (r : run) (t : thr) : bool :=
  negb (sminus (Z.lor (t_pend t) (n_pend r)) (t_mask t) =? 0).

(* SyscallHandler::syscall (mod.rs:118-330), ManagedThread::resume
   (managed_thread.rs:255-309), Process::resume (process.rs:1270-1303) *)
Definition do_call (h : host) (pid tid : Z) (c : call) (io : option Z)
    : option (host * list obs) :=
  do (h, o, res) <- handle h pid tid c io;
  do r <- run_of h pid;
  do t <- get tid (n_thr r);
  let o := OCall pid tid c :: o in
  let res := match res with
             | RBlock _ rs => if sig_ready r t then RDone (- EINTR) rs else res
             | _ => res
             end in
  match res with
  | RDone v rs =>
      Some (set_cur (put_thr h pid tid (set_tst t TRun))
                    (Some (pid, tid, MSig (mkRet v rs (Some c)) true)), o)
  | RBlock tr _ =>
      let cid := h_cid h in
      let h := mkHost (h_procs h) (h_next h) (cid + 1) (h_tasks h) None in
      let t := set_tst t (TBlk (mkCnd cid tr false c)) in
      let lst := match tr with TrChild => n_lst r ++ [(tid, cid)] | _ => n_lst r end in
      Some (put_run h pid (set_nlst (set_nthr r (bput tid t (n_thr r))) lst), o)
  | RExitThread code =>
      (* reap_thread, process.rs:326-400; the process ends with its last thread, its
         status being the exit code of the thread group leader *)
      let r := if tid =? pid then set_ncode r (Z.land code 255) else r in
      match del tid (n_thr r) with
      | [] => do (h, o') <- end_process h pid (Exited (n_code r)); Some (h, o ++ o')
      | ts => Some (set_cur (put_run h pid (set_nthr r ts)) None, o)
      end
  | RExitGroup code =>
      do (h, o') <- end_process h pid (Exited (Z.land code 255)); Some (h, o ++ o')
  end.

(** * Running a thread *)

(* Process::resume and Thread::resume: a blocked call is made again after its
   condition has been cancelled *)
Definition resume (h : host) (pid tid : Z) (io : option Z) : option (host * list obs) :=
  match run_of h pid with
  | None => Some (h, [])
  | Some r =>
      match get tid (n_thr r) with
      | None => Some (h, [])
      | Some t =>
          match t_st t with
          | TNew forked =>
              Some (set_cur (put_thr h pid tid (set_tst t TRun))
                      (Some (pid, tid, if forked then MSig (mkRet 0 false None) true else MApp)),
                    [])
          | TRun => Some (h, [])
          | TBlk c =>
              let r := set_nlst r (filter (fun e => negb (fst e =? tid)) (n_lst r)) in
              let r := set_nthr r (bput tid (set_tst t TRun) (n_thr r)) in
              do_call (put_run h pid r) pid tid (c_call c) io
          end
      end
  end.

Definition on_child (t : thr) : bool :=
  match t_st t with TBlk c => match c_trig c with TrChild => true | _ => false end | _ => false end.

(* the reset of actions, process.rs:1830-1857 *)
Definition exec_acts (m : fmap Z sact) : fmap Z sact :=
  fold_right (fun e m => let '(s, a) := e in
                         if (s <=? STD_MAX) && negb (is_default a || is_ignore a)
                         then (s, act_default) :: m else (s, a) :: m) [] m.

(* unistd.rs:803-828, Process::update_for_exec, Thread::update_for_exec.  Dropping a
   condition that listens for children looks up the current process, which is
   borrowed mutably at this point, and panics. *)
Definition do_exec (h : host) (pid tid : Z) (io : option Z) : option (host * list obs) :=
  match get pid (h_procs h) with
  | None => Some (h, [])
  | Some p =>
      match p_st p with
      | PZom _ => Some (h, [])
      | PRun r =>
          do t <- get tid (n_thr r);
          check negb (existsb (fun e => on_child (snd e)) (n_thr r));
          let t := mkThr (t_mask t) (t_pend t) (t_infos t) stk_none [] (TNew false) in
          let r := mkRun (n_pend r) (n_infos r) (exec_acts (n_acts r)) [(pid, t)] (n_lst r)
                         (n_code r) in
          let h := put_proc h pid (set_exs (set_pst p (PRun r)) (Some SIGCHLD)) in
          do (h, o) <- resume h pid pid io; Some (h, OExec pid tid :: o)
      end
  end.

(* _syscallcondition_trigger, syscall_condition.c:309-427; [sat]: the file is ready
   or the timeout has passed *)
Definition do_wake (h : host) (pid tid cid : Z) (tr : trig) (sat : bool) (io : option Z)
    : option (host * list obs) :=
  match run_of h pid with
  | None => Some (h, [])
  | Some r =>
      match get tid (n_thr r) with
      | None => Some (h, [])
      | Some t =>
          let h := match t_st t with
                   | TBlk c => if c_id c =? cid
                               then put_thr h pid tid
                                      (set_tst t (TBlk (mkCnd cid (c_trig c) false (c_call c))))
                               else h
                   | _ => h
                   end in
          if sat || match tr with TrChild => true | _ => false end || sig_ready r t
          then resume h pid tid io else Some (h, [])
      end
  end.

(** * Processing signals: one turn of the loop of process_signals *)

(* take_pending_unblocked_signal, shim_shmem.rs:281-300, 395-412 and 421-440 *)
Definition take (h : host) (pid tid : Z) : option (option (host * sinfo * dest)) :=
  do r <- run_of h pid;
  do t <- get tid (n_thr r);
  let s := sminus (t_pend t) (t_mask t) in
  if negb (s =? 0) then
    do sig <- slowest s;
    Some (Some (put_thr h pid tid (set_tpend t (sdrop (t_pend t) sig) (t_infos t)),
                info_of (t_infos t) sig, DTh pid tid))
  else
    let s := sminus (n_pend r) (t_mask t) in
    if negb (s =? 0) then
      do sig <- slowest s;
      Some (Some (put_run h pid (set_npend r (sdrop (n_pend r) sig) (n_infos r)),
                  info_of (n_infos r) sig, DPr pid))
    else Some None.

(* signals.rs:216-222 *)
Definition handler_stk (a : sact) (s : stk) : stk :=
  if sa_onstack a && negb (ss_disable s) then
    if ss_autodisarm s then stk_none
    else mkStk (ss_sp s) (ss_size s) (ss_disable s) true (ss_autodisarm s) (ss_other s)
  else s.

(* signals.rs:153-159 *)
Definition handler_mask (a : sact) (mask sig : Z) : Z :=
  let m := Z.lor (sa_mask a) mask in
  if sa_nodefer a then m else sadd m sig.

(* process_signals, signals.rs:110-343; at the end of the loop syscall.rs:103-119 *)
Definition loop (h : host) (pid tid : Z) (rt : ret) (all : bool) (io : option Z)
    : option (host * list obs) :=
  do tk <- take h pid tid;
  match tk with
  | None =>
      match r_call rt with
      | Some c =>
          if (r_val rt =? - EINTR) && all && r_rs rt then do_call h pid tid c io
          else Some (set_cur h (Some (pid, tid, MApp)), [ORet pid tid c (r_val rt)])
      | None => Some (set_cur h (Some (pid, tid, MApp)), [])
      end
  | Some (h, i, d) =>
      let sig := si_sig i in
      let o := [OTake pid tid d i] in
      do r <- run_of h pid;
      do t <- get tid (n_thr r);
      let a := act_of r sig in
      match sa_h a with
      | HIgn => Some (h, o)
      | HDfl =>
          match defaultaction sig with
          | DIgn => Some (h, o)
          | DTerm | DCore =>
              do (h, o') <- end_process h pid (Signaled sig); Some (h, o ++ o')
          | DStop | DCont => None    (* unimplemented!() *)
          end
      | HFun f =>
          let fr := mkFrame sig (t_mask t) (t_stk t) rt (all && sa_restart a) in
          let t := mkThr (handler_mask a (t_mask t) sig) (t_pend t) (t_infos t)
                         (handler_stk a (t_stk t)) (fr :: t_frames t) (t_st t) in
          let acts := if sa_resethand a then put sig act_default (n_acts r) else n_acts r in
          let r := set_nacts (set_nthr r (bput tid t (n_thr r))) acts in
          Some (set_cur (put_run h pid r) (Some (pid, tid, MApp)),
                o ++ [OHandler pid tid sig i f])
      end
  end.

(** * The machine *)

Inductive op :=
| PSpawn                                (** a configured process starts *)
| PTask (sat : bool) (io : option Z)    (** the next scheduled task runs *)
| PCall (c : call) (io : option Z)      (** the current thread makes a call *)
| PLoop (io : option Z)                 (** one turn of processing signals *)
| PRet                                  (** the current handler returns *)
| PJump                                 (** the current handler is left by a jump *)
| PFault (sig n : Z)                    (** the application faults *)
| PTimer (pid n : Z)                    (** the interval timer of a process expires *)
| PShutdown (pid sig : Z)               (** the shutdown signal of a configured process *)
| PTrig (pid tid : Z).                  (** something outside wakes a blocked thread *)

Definition run_task (h : host) (t : task) (sat : bool) (io : option Z)
    : option (host * list obs) :=
  match t with
  | TkResume pid tid => resume h pid tid io
  | TkWake pid tid cid tr => do_wake h pid tid cid tr sat io
  | TkExec pid tid => do_exec h pid tid io
  end.

(** One step; an operation that is not possible in the state changes nothing.
    [None]: Shadow, or the shim, panics. *)
Definition step (h : host) (x : op) : option (host * list obs) :=
  match h_cur h, x with
  | None, PSpawn =>
      (* Process::spawn, process.rs:954-1150, host.rs:384-421 *)
      let id := h_next h in
      let p := mkProc INIT INIT INIT None None
                      (PRun (mkRun 0 [] [] [(id, thr_new false)] [] 0)) in
      let h := put_proc (mkHost (h_procs h) (id + 1) (h_cid h) (h_tasks h) (h_cur h)) id p in
      do (h, o) <- resume h id id None; Some (h, OBorn id INIT :: o)
  | None, PTask sat io =>
      match h_tasks h with
      | [] => Some (h, [])
      | t :: ts => run_task (set_tasks h ts) t sat io
      end
  | None, PTimer pid n => signal_run h None pid None (mkInfo SIGALRM (SiTimer n))
  | None, PShutdown pid sig =>
      if is_sig sig && negb (is_rt sig)
      then signal_run h None pid None (mkInfo sig (SiUser 1)) else Some (h, [])
  | None, PTrig pid tid =>
      match thr_of h pid tid with
      | Some t => match t_st t with
                  | TBlk c => match c_trig c with
                              | TrOther => Some (sched_wake h pid tid, [])
                              | _ => Some (h, [])
                              end
                  | _ => Some (h, [])
                  end
      | None => Some (h, [])
      end
  | Some (pid, tid, MApp), PCall c io => do_call h pid tid c io
  | Some (pid, tid, MApp), PRet =>
      (* signals.rs:327-342 *)
      match thr_of h pid tid with
      | Some t =>
          match t_frames t with
          | [] => Some (h, [])
          | f :: fs =>
              let t := mkThr (f_mask f) (t_pend t) (t_infos t) (f_stk f) fs (t_st t) in
              Some (set_cur (put_thr h pid tid t) (Some (pid, tid, MSig (f_ret f) (f_all f))), [])
          end
      | None => Some (h, [])
      end
  | Some (pid, tid, MApp), PJump =>
      match thr_of h pid tid with
      | Some t => Some (put_thr h pid tid (set_tframes t (tl (t_frames t))), [])
      | None => Some (h, [])
      end
  | Some (pid, tid, MApp), PFault sig n =>
      (* handle_hardware_error_signal_inner, signals.rs:346-380; SIGSEGV, SIGILL, SIGBUS, SIGFPE *)
      if existsb (Z.eqb sig) [11; 4; 7; 8] then
        match thr_of h pid tid with
        | Some t =>
            let i := mkInfo sig (SiFault n) in
            let dup := shas (t_pend t) sig in
            let t := if dup then t
                     else set_tpend t (sadd (t_pend t) sig) (put sig i (t_infos t)) in
            Some (set_cur (put_thr h pid tid t) (Some (pid, tid, MSig (mkRet 0 false None) true)),
                  if dup then [] else [OQueue (DTh pid tid) i])
        | None => Some (h, [])
        end
      else Some (h, [])
  | Some (pid, tid, MSig r all), PLoop io => loop h pid tid r all io
  | _, _ => Some (h, [])
  end.

Fixpoint steps (h : host) (xs : list op) : option (host * list obs) :=
  match xs with
  | [] => Some (h, [])
  | x :: xs' => do (h, o) <- step h x; do (h, o') <- steps h xs'; Some (h, o ++ o')
  end.

Definition reach (h : host) : Prop := exists xs o, steps host_new xs = Some (h, o).
