(** C47 to C52: processes, threads and signals of a host. *)
From Verif Require Import Base FMap ProcModel ProcSpec ProcFaults ProcApi ProcInv ProcSig ProcRun ProcCrash ProcTame ProcLaws ProcCalls ProcKids ProcTell ProcGroups ProcMore ProcCodes.

(* ------------------------------------------------------------------ runs for the examples *)
Definition at_end (xs : list op) : host := match steps host_new xs with Some (h, _) => h | None => host_new end.
Definition seen (xs : list op) : list obs := match steps host_new xs with Some (_, o) => o | None => [] end.
Definition next (xs : list op) (x : op) : host := match step (at_end xs) x with Some (h, _) => h | None => host_new end.
Definition next_obs (xs : list op) (x : op) : list obs := match step (at_end xs) x with Some (_, o) => o | None => [] end.
Definition runs_ok (xs : list op) : bool := match steps host_new xs with Some _ => true | None => false end.
Lemma ran xs : runs_ok xs = true -> steps host_new xs = Some (at_end xs, seen xs).
Proof. unfold runs_ok, at_end, seen. destruct (steps host_new xs) as [[h o]|]; [reflexivity|discriminate]. Qed.
Definition can (xs : list op) (x : op) : bool := match step (at_end xs) x with Some _ => true | None => false end.
Lemma goes xs x : can xs x = true -> step (at_end xs) x = Some (next xs x, next_obs xs x).
Proof. unfold can, next, next_obs. destruct (step (at_end xs) x) as [[h o]|]; [reflexivity|discriminate]. Qed.
Ltac go := vm_compute; reflexivity.
Ltac gos := repeat match goal with |- _ /\ _ => split end; go.

Definition W0 := mkW false false false false false false.
Definition WALL := mkW false false false true false false.
Definition fork := Clone (mkC false false false false false false false false) 17.
Definition thread := Clone (mkC true true true false true false false false) 0.
Definition C (c : call) : list op := [PCall c None; PLoop None].
Definition T := PTask true None.
Definition hf := mkAct (HFun 7) false false false false (sbit 12).

(** 1000 has a child, 1001, and runs. *)
Definition family : list op := [PSpawn] ++ C fork.
(** 1000 waits for its child, which runs. *)
Definition waiting : list op := family ++ [PCall (Wait4 (-1) W0) None; T; PLoop None].
(** The child has ended; the wakeup of its parent is scheduled. *)
Definition over : list op := waiting ++ [PCall (ExitGroup 259) None].
(** 1000 has two threads, 1000 and 1001, and handles signal 10. *)
Definition pair_of_threads : list op := [PSpawn] ++ C (Sigaction 10 (Some hf)) ++ C (Sigaction 12 (Some hf)) ++ C thread.
(** 1000 has sent itself signal 10, which it handles. *)
Definition struck : list op := [PSpawn] ++ C (Sigaction 10 (Some hf)) ++ [PCall (Kill 1000 10) None].
(** 1000 reads and signal 10 arrives. *)
Definition reading : list op := [PSpawn] ++ C (Sigaction 10 (Some hf)) ++ [PCall (Io true) None; PShutdown 1000 10].

(* ------------------------------------------------------------------ C47 *)
(** Per destination and number one signal is pending at most, each is taken once at most, by a
    thread it was sent to, with the information it was sent with. *)
Theorem C47_traces : forall xs h o, steps host_new xs = Some (h, o) -> obeys nothing o.
Proof. exact traces_obey. Qed.
Print Assumptions C47_traces.
Example C47_traces_ex : steps host_new (struck ++ [PLoop None]) = Some (at_end (struck ++ [PLoop None]), seen (struck ++ [PLoop None])) /\
  In (OTake 1000 1000 (DPr 1000) (mkInfo 10 (SiUser 1000))) (seen (struck ++ [PLoop None])).
Proof. split; [go|]. vm_compute. tauto. Qed.

(** No signal is lost: what is pending is what was sent and has not been taken. *)
Theorem C47_pending : forall xs h o pid r, steps host_new xs = Some (h, o) -> run_of h pid = Some r ->
  (forall s, shas (n_pend r) s = true <-> exists i, after nothing o (DPr pid) s = Some i) /\
  (forall tid t s, get tid (n_thr r) = Some t -> (shas (t_pend t) s = true <-> exists i, after nothing o (DTh pid tid) s = Some i)).
Proof. exact pending_exact. Qed.
Print Assumptions C47_pending.
Example C47_pending_ex : exists r, run_of (at_end struck) 1000 = Some r /\ shas (n_pend r) 10 = true.
Proof. eexists. split; go. Qed.

(** A thread takes signals it does not block, its own before those of the process, the least number first. *)
Theorem C47_take : forall xs h o x h' o' pid tid d i, steps host_new xs = Some (h, o) -> step h x = Some (h', o') -> In (OTake pid tid d i) o' ->
  exists r t, run_of h pid = Some r /\ get tid (n_thr r) = Some t /\ shas (t_mask t) (si_sig i) = false /\
    match d with
    | DTh p u => p = pid /\ u = tid /\ shas (t_pend t) (si_sig i) = true /\
        forall s, shas (t_pend t) s = true -> shas (t_mask t) s = false -> si_sig i <= s
    | DPr p => p = pid /\ shas (n_pend r) (si_sig i) = true /\ (forall s, shas (t_pend t) s = true -> shas (t_mask t) s = true) /\
        forall s, shas (n_pend r) s = true -> shas (t_mask t) s = false -> si_sig i <= s
    end.
Proof. exact take_least. Qed.
Print Assumptions C47_take.
Example C47_take_ex : runs_ok struck = true /\ can struck (PLoop None) = true /\ In (OTake 1000 1000 (DPr 1000) (mkInfo 10 (SiUser 1000))) (next_obs struck (PLoop None)).
Proof. split; [go|]. split; [go|]. vm_compute. tauto. Qed.

(** When a call returns to the application, every signal that is pending for the thread is blocked. *)
Theorem C47_return : forall xs h o x h' o' pid tid c v, steps host_new xs = Some (h, o) -> step h x = Some (h', o') -> In (ORet pid tid c v) o' ->
  h_cur h' = Some (pid, tid, MApp) /\ exists r t, run_of h' pid = Some r /\ get tid (n_thr r) = Some t /\
    forall s, shas (t_pend t) s = true \/ shas (n_pend r) s = true -> shas (t_mask t) s = true.
Proof. exact ret_quiet. Qed.
Print Assumptions C47_return.
Definition masked : list op := [PSpawn] ++ C (Sigprocmask 0 (Some (sbit 10))) ++ [PCall (Kill 1000 10) None].
Example C47_return_ex : runs_ok masked = true /\ In (ORet 1000 1000 (Kill 1000 10) 0) (next_obs masked (PLoop None)) /\
  exists r, run_of (next masked (PLoop None)) 1000 = Some r /\ shas (n_pend r) 10 = true.
Proof. split; [go|]. split; [vm_compute; tauto|]. eexists. split; go. Qed.

(** kill on a process id: the target gets the signal exactly if it runs, does not ignore the signal and the
    signal is not pending yet. *)
Theorem C47_kill : forall xs h o pid tid x s io h' o', steps host_new xs = Some (h, o) -> h_cur h = Some (pid, tid, MApp) ->
  step h (PCall (Kill x s) io) = Some (h', o') -> 0 < x ->
  (get x (h_procs h) = None -> completes h' pid tid (Kill x s) (- ESRCH) /\ o' = [OCall pid tid (Kill x s)] /\ h_procs h' = h_procs h) /\
  (get x (h_procs h) <> None -> s = 0 -> completes h' pid tid (Kill x s) 0 /\ o' = [OCall pid tid (Kill x s)] /\ h_procs h' = h_procs h) /\
  (get x (h_procs h) <> None -> s < 0 \/ 64 < s -> completes h' pid tid (Kill x s) (- EINVAL) /\ o' = [OCall pid tid (Kill x s)] /\ h_procs h' = h_procs h) /\
  (get x (h_procs h) <> None -> 1 <= s <= 31 -> completes h' pid tid (Kill x s) 0 /\
     (run_of h x = None -> o' = [OCall pid tid (Kill x s)]) /\
     (forall r, run_of h x = Some r ->
        (discards r s \/ shas (n_pend r) s = true -> o' = [OCall pid tid (Kill x s)]) /\
        (~ discards r s -> shas (n_pend r) s = false -> o' = [OCall pid tid (Kill x s); OQueue (DPr x) (mkInfo s (SiUser pid))]))).
Proof. exact kill_law. Qed.
Print Assumptions C47_kill.
Example C47_kill_ex : runs_ok family = true /\ h_cur (at_end family) = Some (1000, 1000, MApp) /\ can family (PCall (Kill 1001 15) None) = true /\
  next_obs family (PCall (Kill 1001 15) None) = [OCall 1000 1000 (Kill 1001 15); OQueue (DPr 1001) (mkInfo 15 (SiUser 1000))].
Proof. gos. Qed.

(** tgkill sends to one thread. *)
Theorem C47_tgkill : forall xs h o pid tid g x s io h' o' r t, steps host_new xs = Some (h, o) -> h_cur h = Some (pid, tid, MApp) ->
  step h (PCall (Tgkill g x s) io) = Some (h', o') -> run_of h g = Some r -> get x (n_thr r) = Some t -> 1 <= s <= 31 ->
  completes h' pid tid (Tgkill g x s) 0 /\
  (discards r s \/ shas (t_pend t) s = true -> o' = [OCall pid tid (Tgkill g x s)]) /\
  (~ discards r s -> shas (t_pend t) s = false -> o' = [OCall pid tid (Tgkill g x s); OQueue (DTh g x) (mkInfo s (SiTkill pid))]).
Proof. exact tgkill_law. Qed.
Print Assumptions C47_tgkill.
Example C47_tgkill_ex : runs_ok pair_of_threads = true /\ h_cur (at_end pair_of_threads) = Some (1000, 1000, MApp) /\ can pair_of_threads (PCall (Tgkill 1000 1001 10) None) = true /\
  next_obs pair_of_threads (PCall (Tgkill 1000 1001 10) None) = [OCall 1000 1000 (Tgkill 1000 1001 10); OQueue (DTh 1000 1001) (mkInfo 10 (SiTkill 1000))].
Proof. gos. Qed.

(** No signal is sent to a thread that is not there. *)
Theorem C47_tgkill_none : forall xs h o pid tid g x s io h' o', steps host_new xs = Some (h, o) -> h_cur h = Some (pid, tid, MApp) ->
  step h (PCall (Tgkill g x s) io) = Some (h', o') -> (forall r, run_of h g = Some r -> get x (n_thr r) = None) ->
  completes h' pid tid (Tgkill g x s) (- ESRCH) /\ o' = [OCall pid tid (Tgkill g x s)] /\ h_procs h' = h_procs h.
Proof. exact tgkill_none. Qed.
Print Assumptions C47_tgkill_none.
Example C47_tgkill_none_ex : runs_ok family = true /\ h_cur (at_end family) = Some (1000, 1000, MApp) /\ can family (PCall (Tgkill 1000 1001 10) None) = true /\
  (forall r, run_of (at_end family) 1000 = Some r -> get 1001 (n_thr r) = None).
Proof. split; [go|]. split; [go|]. split; [go|]. vm_compute. intros r [= <-]. reflexivity. Qed.

(** tkill does the same for a thread of any process. *)
Theorem C47_tkill : forall xs h o pid tid x s io h' o', steps host_new xs = Some (h, o) -> h_cur h = Some (pid, tid, MApp) ->
  step h (PCall (Tkill x s) io) = Some (h', o') ->
  ((forall g r, run_of h g = Some r -> get x (n_thr r) = None) -> completes h' pid tid (Tkill x s) (- ESRCH) /\ o' = [OCall pid tid (Tkill x s)] /\ h_procs h' = h_procs h) /\
  (forall g r t, run_of h g = Some r -> get x (n_thr r) = Some t -> 1 <= s <= 31 -> completes h' pid tid (Tkill x s) 0 /\
     (discards r s \/ shas (t_pend t) s = true -> o' = [OCall pid tid (Tkill x s)]) /\
     (~ discards r s -> shas (t_pend t) s = false -> o' = [OCall pid tid (Tkill x s); OQueue (DTh g x) (mkInfo s (SiTkill pid))])).
Proof. exact tkill_law. Qed.
Print Assumptions C47_tkill.
Example C47_tkill_ex : runs_ok family = true /\ can family (PCall (Tkill 1001 10) None) = true /\
  next_obs family (PCall (Tkill 1001 10) None) = [OCall 1000 1000 (Tkill 1001 10); OQueue (DTh 1001 1001) (mkInfo 10 (SiTkill 1000))] /\
  can family (PCall (Tkill 1002 10) None) = true /\ h_cur (next family (PCall (Tkill 1002 10) None)) = Some (1000, 1000, MSig (mkRet (- ESRCH) false (Some (Tkill 1002 10))) true).
Proof. gos. Qed.

(** A handler starts with the mask and the action that sigaction asked for. *)
Theorem C47_handler : forall xs h o x h' o' pid tid sig i f, steps host_new xs = Some (h, o) -> step h x = Some (h', o') -> In (OHandler pid tid sig i f) o' ->
  exists d rt all r t r' t', h_cur h = Some (pid, tid, MSig rt all) /\ h_cur h' = Some (pid, tid, MApp) /\ o' = [OTake pid tid d i; OHandler pid tid sig i f] /\ si_sig i = sig /\
    run_of h pid = Some r /\ get tid (n_thr r) = Some t /\ run_of h' pid = Some r' /\ get tid (n_thr r') = Some t' /\
    sa_h (act_of r sig) = HFun f /\
    (forall s, 1 <= s -> shas (t_mask t') s = shas (t_mask t) s || shas (sa_mask (act_of r sig)) s || (negb (sa_nodefer (act_of r sig)) && (s =? sig))) /\
    t_frames t' = mkFrame sig (t_mask t) (t_stk t) rt (all && sa_restart (act_of r sig)) :: t_frames t /\
    stack_of (sa_onstack (act_of r sig)) (t_stk t) (t_stk t') /\
    (forall s, act_of r' s = if sa_resethand (act_of r sig) && (s =? sig) then act_default else act_of r s).
Proof. exact handler_law. Qed.
Print Assumptions C47_handler.
Example C47_handler_ex : runs_ok struck = true /\ can struck (PLoop None) = true /\ In (OHandler 1000 1000 10 (mkInfo 10 (SiUser 1000)) 7) (next_obs struck (PLoop None)).
Proof. split; [go|]. split; [go|]. vm_compute. tauto. Qed.

(** sigaction sets the action of one signal of the process. *)
Theorem C47_sigaction : forall xs h o pid tid s act io h' o' r, steps host_new xs = Some (h, o) -> h_cur h = Some (pid, tid, MApp) -> run_of h pid = Some r ->
  step h (PCall (Sigaction s act) io) = Some (h', o') ->
  o' = [OCall pid tid (Sigaction s act)] /\ (forall z, z <> pid -> get z (h_procs h') = get z (h_procs h)) /\
  (~ 1 <= s <= 64 \/ ((s = 9 \/ s = 19) /\ act <> None) -> completes h' pid tid (Sigaction s act) (- EINVAL) /\ h_procs h' = h_procs h) /\
  (1 <= s <= 64 -> act = None -> completes h' pid tid (Sigaction s act) 0 /\ h_procs h' = h_procs h) /\
  (forall a, 1 <= s <= 64 -> s <> 9 -> s <> 19 -> act = Some a -> completes h' pid tid (Sigaction s act) 0 /\
     exists r', run_of h' pid = Some r' /\ n_pend r' = n_pend r /\ n_thr r' = n_thr r /\ (forall k, k <> s -> act_of r' k = act_of r k) /\
       sa_h (act_of r' s) = sa_h a /\ sa_nodefer (act_of r' s) = sa_nodefer a /\ sa_resethand (act_of r' s) = sa_resethand a /\ sa_restart (act_of r' s) = sa_restart a /\
       sa_onstack (act_of r' s) = sa_onstack a /\ forall k, 1 <= k <= 64 -> shas (sa_mask (act_of r' s)) k = shas (sa_mask a) k).
Proof. exact sigaction_law. Qed.
Print Assumptions C47_sigaction.
Example C47_sigaction_ex : runs_ok family = true /\ can family (PCall (Sigaction 10 (Some hf)) None) = true /\
  exists r, run_of (next family (PCall (Sigaction 10 (Some hf)) None)) 1000 = Some r /\ act_of r 10 = hf.
Proof. split; [go|]. split; [go|]. eexists. split; [go|go]. Qed.

(** sigprocmask changes the mask of the calling thread only: adds, removes or replaces. *)
Theorem C47_sigprocmask : forall xs h o pid tid how set io h' o' t, steps host_new xs = Some (h, o) -> h_cur h = Some (pid, tid, MApp) -> thr_of h pid tid = Some t ->
  step h (PCall (Sigprocmask how set) io) = Some (h', o') ->
  o' = [OCall pid tid (Sigprocmask how set)] /\ only_thread h h' pid tid /\
  (set = None -> completes h' pid tid (Sigprocmask how set) 0 /\ h_procs h' = h_procs h) /\
  (~ 0 <= how <= 2 -> set <> None -> completes h' pid tid (Sigprocmask how set) (- EINVAL) /\ h_procs h' = h_procs h) /\
  (forall s, 0 <= how <= 2 -> set = Some s -> completes h' pid tid (Sigprocmask how set) 0 /\
     exists t', thr_of h' pid tid = Some t' /\ t_pend t' = t_pend t /\ t_stk t' = t_stk t /\ t_frames t' = t_frames t /\
       forall k, 1 <= k <= 64 -> shas (t_mask t') k = if how =? 0 then shas (t_mask t) k || shas s k else if how =? 1 then shas (t_mask t) k && negb (shas s k) else shas s k).
Proof. exact sigprocmask_law. Qed.
Print Assumptions C47_sigprocmask.
Example C47_sigprocmask_ex : runs_ok (masked ++ [PLoop None]) = true /\ h_cur (at_end (masked ++ [PLoop None])) = Some (1000, 1000, MApp) /\ can (masked ++ [PLoop None]) (PCall (Sigprocmask 1 (Some (sbit 10))) None) = true /\
  exists t t', thr_of (at_end (masked ++ [PLoop None])) 1000 1000 = Some t /\ thr_of (next (masked ++ [PLoop None]) (PCall (Sigprocmask 1 (Some (sbit 10))) None)) 1000 1000 = Some t' /\
    shas (t_mask t) 10 = true /\ shas (t_mask t') 10 = false.
Proof. split; [go|]. split; [go|]. split; [go|]. eexists _, _. split; [go|]. split; [go|]. split; [go|go]. Qed.

(** sigaltstack changes the alternate stack of the calling thread, unless it runs on it. *)
Theorem C47_sigaltstack : forall xs h o pid tid ss io h' o' t, steps host_new xs = Some (h, o) -> h_cur h = Some (pid, tid, MApp) -> thr_of h pid tid = Some t ->
  step h (PCall (Sigaltstack ss) io) = Some (h', o') ->
  o' = [OCall pid tid (Sigaltstack ss)] /\ only_thread h h' pid tid /\
  (ss = None -> completes h' pid tid (Sigaltstack ss) 0 /\ h_procs h' = h_procs h) /\
  (forall s, ss = Some s ->
     (ss_onstack (t_stk t) = true -> completes h' pid tid (Sigaltstack ss) (- EPERM) /\ h_procs h' = h_procs h) /\
     (ss_onstack (t_stk t) = false -> ss_disable s = false -> ss_onstack s = true \/ ss_other s = true -> completes h' pid tid (Sigaltstack ss) (- EINVAL) /\ h_procs h' = h_procs h) /\
     (ss_onstack (t_stk t) = false -> ss_disable s = true \/ (ss_onstack s = false /\ ss_other s = false) -> completes h' pid tid (Sigaltstack ss) 0 /\
        exists t', thr_of h' pid tid = Some t' /\ t_pend t' = t_pend t /\ t_mask t' = t_mask t /\ t_frames t' = t_frames t /\ t_stk t' = if ss_disable s then stk_none else s)).
Proof. exact sigaltstack_law. Qed.
Print Assumptions C47_sigaltstack.
(** A handler runs on the alternate stack. *)
Definition onstack : list op := [PSpawn] ++ C (Sigaltstack (Some (mkStk 4096 8192 false false false false))) ++
  C (Sigaction 10 (Some (mkAct (HFun 7) false false false true 0))) ++ [PCall (Kill 1000 10) None; PLoop None].
Example C47_sigaltstack_ex : runs_ok onstack = true /\ h_cur (at_end onstack) = Some (1000, 1000, MApp) /\ can onstack (PCall (Sigaltstack (Some stk_none)) None) = true /\
  exists t, thr_of (at_end onstack) 1000 1000 = Some t /\ t_stk t = mkStk 4096 8192 false true false false /\
    h_cur (next onstack (PCall (Sigaltstack (Some stk_none)) None)) = Some (1000, 1000, MSig (mkRet (- EPERM) false (Some (Sigaltstack (Some stk_none)))) true).
Proof. split; [go|]. split; [go|]. split; [go|]. eexists. split; [go|]. split; [go|go]. Qed.

(** When the handler returns, whatever happened meanwhile, the mask and the stack are those from before. *)
Theorem C47_restore : forall xs h o x h1 o1 pid tid sig i f ys h2 o2 h3 o3,
  steps host_new xs = Some (h, o) -> step h x = Some (h1, o1) -> In (OHandler pid tid sig i f) o1 -> steps h1 ys = Some (h2, o2) ->
  h_cur h2 = Some (pid, tid, MApp) ->
  (exists t1 t2, thr_of h1 pid tid = Some t1 /\ thr_of h2 pid tid = Some t2 /\ t_frames t2 = t_frames t1) ->
  step h2 PRet = Some (h3, o3) ->
  exists t t3, thr_of h pid tid = Some t /\ thr_of h3 pid tid = Some t3 /\ t_mask t3 = t_mask t /\ t_stk t3 = t_stk t /\ t_frames t3 = t_frames t /\
    exists rt all a, h_cur h = Some (pid, tid, MSig rt all) /\ (exists r, run_of h pid = Some r /\ act_of r sig = a) /\
      h_cur h3 = Some (pid, tid, MSig rt (all && sa_restart a)).
Proof. exact handler_restores. Qed.
Print Assumptions C47_restore.
(** The handler changes its mask and is itself interrupted. *)
Definition inside : list op := C (Sigprocmask 2 (Some 0)) ++ [PCall (Kill 1000 10) None; PLoop None; PRet; PLoop None].
Example C47_restore_ex : exists h2 o2 h3 o3 t1 t2, steps (next struck (PLoop None)) inside = Some (h2, o2) /\ h_cur h2 = Some (1000, 1000, MApp) /\
  thr_of (next struck (PLoop None)) 1000 1000 = Some t1 /\ thr_of h2 1000 1000 = Some t2 /\ t_frames t2 = t_frames t1 /\ t_mask t2 <> t_mask t1 /\ step h2 PRet = Some (h3, o3).
Proof. eexists _, _, _, _, _, _. split; [go|]. split; [go|]. split; [go|]. split; [go|]. split; [go|]. split; [vm_compute; discriminate|go]. Qed.

(** A process that takes SIGKILL ends. *)
Theorem C47_sigkill : forall xs h o x h' o' pid tid d i, steps host_new xs = Some (h, o) -> step h x = Some (h', o') -> In (OTake pid tid d i) o' -> si_sig i = 9 ->
  In (ODied pid (Signaled 9)) o' /\ run_of h' pid = None.
Proof. exact sigkill_kills. Qed.
Print Assumptions C47_sigkill.
Definition shot : list op := [PSpawn] ++ [PCall (Kill 1000 9) None].
Example C47_sigkill_ex : runs_ok shot = true /\ can shot (PLoop None) = true /\ In (OTake 1000 1000 (DPr 1000) (mkInfo 9 (SiUser 1000))) (next_obs shot (PLoop None)).
Proof. split; [go|]. split; [go|]. vm_compute. tauto. Qed.

(** SIGKILL and SIGSTOP cannot be handled or ignored. *)
Theorem C47_actions : forall xs h o pid r s, steps host_new xs = Some (h, o) -> run_of h pid = Some r -> s = 9 \/ s = 19 -> act_of r s = act_default.
Proof. exact fixed_actions. Qed.
Print Assumptions C47_actions.
Example C47_actions_ex : runs_ok ([PSpawn] ++ C (Sigaction 9 (Some hf))) = true /\ exists r, run_of (at_end ([PSpawn] ++ C (Sigaction 9 (Some hf)))) 1000 = Some r.
Proof. split; [go|]. eexists. go. Qed.

(** Refuted: SIGKILL can be blocked. *)
Theorem C47_unblockable_refuted : exists xs h o r, steps host_new xs = Some (h, o) /\ h_cur h = Some (1000, 1000, MApp) /\ run_of h 1000 = Some r /\ shas (n_pend r) 9 = true.
Proof. exists ([PSpawn] ++ C (Sigprocmask 0 (Some (sbit 9))) ++ C (Kill 1000 9)). eexists _, _, _. split; [go|]. split; [go|]. split; go. Qed.
Print Assumptions C47_unblockable_refuted.

(** Refuted: kill with a negative process id reaches every process of the group. *)
Definition group_run : list op := [PSpawn] ++ C Setsid ++ C fork.
Theorem C47_group_refuted : exists h o q h' o', steps host_new group_run = Some (h, o) /\ get 1001 (h_procs h) = Some q /\ p_pgid q = 1000 /\
  step h (PCall (Kill (-1000) 15) None) = Some (h', o') /\ completes h' 1000 1000 (Kill (-1000) 15) 0 /\ ~ exists i, In (OQueue (DPr 1001) i) o'.
Proof.
  eexists _, _, _, _, _. split; [go|]. split; [go|]. split; [go|]. split; [go|]. split; [go|]. intros (i & IN). vm_compute in IN. destruct IN as [X|[X|[]]]; discriminate X.
Qed.
Print Assumptions C47_group_refuted.

(* ------------------------------------------------------------------ C48 *)
(** A blocked call is woken for a signal to its thread that is not blocked. *)
Theorem C48_woken : forall xs h o pid tid r t c s, steps host_new xs = Some (h, o) -> run_of h pid = Some r -> get tid (n_thr r) = Some t -> t_st t = TBlk c ->
  shas (t_pend t) s = true -> shas (t_mask t) s = false -> In (TkWake pid tid (c_id c) (c_trig c)) (h_tasks h).
Proof. exact woken_thread. Qed.
Print Assumptions C48_woken.
Definition poked : list op := pair_of_threads ++ [PCall (Io true) None; T] ++ C (Tgkill 1000 1000 10).
Example C48_woken_ex : runs_ok poked = true /\ exists r t c, run_of (at_end poked) 1000 = Some r /\ get 1000 (n_thr r) = Some t /\ t_st t = TBlk c /\ shas (t_pend t) 10 = true /\ shas (t_mask t) 10 = false.
Proof. split; [go|]. eexists _, _, _. gos. Qed.

(** In a process that never made a thread, the same for signals to the process. *)
Theorem C48_woken_process_partial : forall xs h o pid tid r t c s, steps host_new xs = Some (h, o) -> run_of h pid = Some r -> get tid (n_thr r) = Some t -> t_st t = TBlk c ->
  (forall x fl raw, In (OCall pid x (Clone fl raw)) o -> cf_thread fl = false) ->
  shas (n_pend r) s = true -> shas (t_mask t) s = false -> In (TkWake pid tid (c_id c) (c_trig c)) (h_tasks h).
Proof. exact woken_process. Qed.
Print Assumptions C48_woken_process_partial.
Example C48_woken_process_ex : runs_ok reading = true /\ (forall x fl raw, In (OCall 1000 x (Clone fl raw)) (seen reading) -> cf_thread fl = false) /\
  exists r t c, run_of (at_end reading) 1000 = Some r /\ get 1000 (n_thr r) = Some t /\ t_st t = TBlk c /\ shas (n_pend r) 10 = true /\ shas (t_mask t) 10 = false.
Proof. split; [go|]. split; [intros x fl raw IN; vm_compute in IN; decompose [or] IN; try discriminate; contradiction|]. eexists _, _, _. gos. Qed.

(** Once woken with such a signal, the call is no longer blocked: it has completed or was interrupted. *)
Theorem C48_leaves : forall xs h o pid tid cid tr ts sat io r t c h' o', steps host_new xs = Some (h, o) -> h_cur h = None -> h_tasks h = TkWake pid tid cid tr :: ts ->
  run_of h pid = Some r -> get tid (n_thr r) = Some t -> t_st t = TBlk c -> deliverable r t -> step h (PTask sat io) = Some (h', o') ->
  exists v rs, h_cur h' = Some (pid, tid, MSig (mkRet v rs (Some (c_call c))) true).
Proof. exact woken_leaves. Qed.
Print Assumptions C48_leaves.
Example C48_leaves_ex : runs_ok reading = true /\ h_cur (at_end reading) = None /\ h_tasks (at_end reading) = [TkWake 1000 1000 0 TrOther] /\
  can reading (PTask false None) = true /\ h_cur (next reading (PTask false None)) = Some (1000, 1000, MSig (mkRet (- EINTR) true (Some (Io true))) true).
Proof. gos. Qed.

(** Without a handler, or if every handler had SA_RESTART, an interrupted call that can be made again is made
    again; otherwise the application sees its result. *)
Theorem C48_restart : forall xs h o pid tid rt all io r t h' o' c, steps host_new xs = Some (h, o) -> h_cur h = Some (pid, tid, MSig rt all) -> run_of h pid = Some r -> get tid (n_thr r) = Some t ->
  ~ deliverable r t -> r_call rt = Some c -> step h (PLoop io) = Some (h', o') ->
  (r_val rt = - EINTR /\ all = true /\ r_rs rt = true -> (exists o2, o' = OCall pid tid c :: o2) /\ ~ exists v, In (ORet pid tid c v) o') /\
  (~ (r_val rt = - EINTR /\ all = true /\ r_rs rt = true) -> o' = [ORet pid tid c (r_val rt)] /\ h_cur h' = Some (pid, tid, MApp) /\ h_procs h' = h_procs h).
Proof. exact restart_law. Qed.
Print Assumptions C48_restart.
Definition handled_read : list op := reading ++ [T; PLoop None; PRet].
Example C48_restart_ex : runs_ok handled_read = true /\ h_cur (at_end handled_read) = Some (1000, 1000, MSig (mkRet (- EINTR) true (Some (Io true))) false) /\
  can handled_read (PLoop None) = true /\ next_obs handled_read (PLoop None) = [ORet 1000 1000 (Io true) (- EINTR)] /\
  exists r t, run_of (at_end handled_read) 1000 = Some r /\ get 1000 (n_thr r) = Some t /\ t_pend t = 0 /\ n_pend r = 0.
Proof. split; [go|]. split; [go|]. split; [go|]. split; [go|]. eexists _, _. gos. Qed.

(** Refuted: a process-directed signal that some thread does not block is delivered: both threads of the process are
    blocked in calls and nothing is scheduled. *)
Definition missed : list op := pair_of_threads ++ [PCall (Io true) None; T] ++ C Getpid ++
  [PCall (Io true) None; PShutdown 1000 10; PShutdown 1000 12; PTask false None; PLoop None; PCall (Io true) None; PTask false None].
Theorem C48_lost_refuted : exists h o r t c s, steps host_new missed = Some (h, o) /\ h_cur h = None /\ h_tasks h = [] /\
  run_of h 1000 = Some r /\ get 1001 (n_thr r) = Some t /\ t_st t = TBlk c /\ shas (n_pend r) s = true /\ shas (t_mask t) s = false.
Proof. eexists _, _, _, _, _, 12. gos. Qed.
Print Assumptions C48_lost_refuted.

(* ------------------------------------------------------------------ C49 *)
(** Process ids are never used again; a process ends once, and is reported to its running parent at most once. *)
Theorem C49_lives : forall xs h o, steps host_new xs = Some (h, o) -> lobeys nobody o.
Proof. exact traces_live. Qed.
Print Assumptions C49_lives.
Example C49_lives_ex : runs_ok (over ++ [T]) = true /\ In (OReap 1000 1001 (Exited 3)) (seen (over ++ [T])).
Proof. split; [go|]. vm_compute. tauto. Qed.

(** Every process that is left has a parent: init, or a running process that is older.  Ended processes without such
    a parent are not kept. *)
Theorem C49_parents : forall xs h o z par st, steps host_new xs = Some (h, o) -> snd (lafter nobody o) z = Some (par, st) ->
  (par = INIT /\ st = None) \/ (par < z /\ exists q, snd (lafter nobody o) par = Some (q, None)).
Proof. exact parents. Qed.
Print Assumptions C49_parents.
Example C49_parents_ex : runs_ok over = true /\ snd (lafter nobody (seen over)) 1001 = Some (1000, Some (Exited 3)).
Proof. split; go. Qed.

Theorem C49_getppid : forall xs h o pid tid io h' o', steps host_new xs = Some (h, o) -> h_cur h = Some (pid, tid, MApp) -> step h (PCall Getppid io) = Some (h', o') ->
  exists par, snd (lafter nobody o) pid = Some (par, None) /\ completes h' pid tid Getppid par /\ h_procs h' = h_procs h.
Proof. exact getppid_law. Qed.
Print Assumptions C49_getppid.
Example C49_getppid_ex : runs_ok waiting = true /\ h_cur (at_end waiting) = Some (1001, 1001, MApp) /\ can waiting (PCall Getppid None) = true /\
  h_cur (next waiting (PCall Getppid None)) = Some (1001, 1001, MSig (mkRet 1000 false (Some Getppid)) true).
Proof. gos. Qed.

(** wait4: see [wait_outcome]. *)
Theorem C49_wait4 : forall xs h o pid tid x fl io r t h' o', steps host_new xs = Some (h, o) -> h_cur h = Some (pid, tid, MApp) -> run_of h pid = Some r -> get tid (n_thr r) = Some t ->
  w_other fl = false -> w_exited fl = false -> w_nowait fl = false -> step h (PCall (Wait4 x fl) io) = Some (h', o') ->
  wait_outcome h pid tid (Wait4 x fl) r t h' o' (selects4 h pid x fl) (w_nohang fl) true false (fun z => z).
Proof. exact wait4_law. Qed.
Print Assumptions C49_wait4.
(** The child has ended before its parent waits. *)
Definition early : list op := family ++ [PCall (Io true) None; T; PLoop None; PCall (ExitGroup 3) None; PTrig 1000 1000; PTask true (Some 5); PLoop None].
Example C49_wait4_ex : runs_ok early = true /\ h_cur (at_end early) = Some (1000, 1000, MApp) /\ can early (PCall (Wait4 (-1) W0) None) = true /\
  (exists q, selects4 (at_end early) 1000 (-1) W0 1001 q /\ p_st q = PZom (Exited 3)) /\ next_obs early (PCall (Wait4 (-1) W0) None) = [OCall 1000 1000 (Wait4 (-1) W0); OReap 1000 1001 (Exited 3)].
Proof.
  split; [go|]. split; [go|]. split; [go|]. split; [|go]. eexists.
  split; [split; [go|]; split; [go|]; split; [right; right; split; go|left; reflexivity]|go].
Qed.

Theorem C49_waitid : forall xs h o pid tid w x fl io r t h' o', steps host_new xs = Some (h, o) -> h_cur h = Some (pid, tid, MApp) -> run_of h pid = Some r -> get tid (n_thr r) = Some t ->
  w = PAll \/ 0 <= x /\ (w = PPid \/ w = PPgid) -> step h (PCall (Waitid w x fl) io) = Some (h', o') ->
  wait_outcome h pid tid (Waitid w x fl) r t h' o' (selectsid h pid w x fl) (w_nohang fl) (w_exited fl) (w_nowait fl) (fun _ => 0).
Proof. exact waitid_law. Qed.
Print Assumptions C49_waitid.
Definition peek := Waitid PPid 1001 (mkW false true true false false false).
Example C49_waitid_ex : runs_ok early = true /\ can early (PCall peek None) = true /\ next_obs early (PCall peek None) = [OCall 1000 1000 peek] /\
  h_procs (next early (PCall peek None)) = h_procs (at_end early).
Proof. gos. Qed.

(** A blocked wait4 for any child or for one child is woken when there is such an ended child, if the child tells its
    parent with a signal. *)
Theorem C49_waiter_partial : forall xs h o pid tid t k x fl z q, steps host_new xs = Some (h, o) -> thr_of h pid tid = Some t -> t_st t = TBlk k -> c_call k = Wait4 x fl ->
  w_other fl = false -> w_exited fl = false -> w_nowait fl = false -> x = -1 \/ 0 < x ->
  selects4 h pid x fl z q -> ended q -> p_exs q <> None -> In (TkWake pid tid (c_id k) TrChild) (h_tasks h).
Proof. exact waiter_woken. Qed.
Print Assumptions C49_waiter_partial.
Example C49_waiter_ex : runs_ok over = true /\ exists t k q, thr_of (at_end over) 1000 1000 = Some t /\ t_st t = TBlk k /\ c_call k = Wait4 (-1) W0 /\
  selects4 (at_end over) 1000 (-1) W0 1001 q /\ ended q /\ p_exs q <> None.
Proof.
  split; [go|]. eexists _, _, _. split; [go|]. split; [go|]. split; [go|]. split; [split; [go|]; split; [go|]; split; [right; right; split; go|left; reflexivity]|].
  split; [eexists; go|vm_compute; discriminate].
Qed.

(** When that wakeup runs, the wait reports the child. *)
Theorem C49_served : forall xs h o pid tid cid ts sat io t k x fl z q s h' o', steps host_new xs = Some (h, o) -> h_cur h = None -> h_tasks h = TkWake pid tid cid TrChild :: ts ->
  thr_of h pid tid = Some t -> t_st t = TBlk k -> c_call k = Wait4 x fl -> w_other fl = false -> w_exited fl = false -> w_nowait fl = false ->
  selects4 h pid x fl z q -> p_st q = PZom s -> (forall z' q', selects4 h pid x fl z' q' -> ended q' -> z <= z') -> step h (PTask sat io) = Some (h', o') ->
  completes h' pid tid (Wait4 x fl) z /\ o' = [OCall pid tid (Wait4 x fl); OReap pid z s] /\ get z (h_procs h') = None.
Proof. exact waiter_served. Qed.
Print Assumptions C49_served.
Example C49_served_ex : runs_ok over = true /\ h_cur (at_end over) = None /\ h_tasks (at_end over) = [TkWake 1000 1000 0 TrChild] /\ can over T = true /\
  next_obs over T = [OCall 1000 1000 (Wait4 (-1) W0); OReap 1000 1001 (Exited 3)].
Proof. gos. Qed.

(** exit_group: the parent gets the exit signal unless it ignores it or it is pending; the process is kept for the parent
    unless that ignores the signal explicitly; its children are no longer its children. *)
Theorem C49_exit : forall xs h o pid tid code io h' o' p, steps host_new xs = Some (h, o) -> h_cur h = Some (pid, tid, MApp) -> get pid (h_procs h) = Some p ->
  step h (PCall (ExitGroup code) io) = Some (h', o') ->
  h_cur h' = None /\ run_of h' pid = None /\ In (ODied pid (Exited (Z.land code 255))) o' /\
  (forall z q, get z (h_procs h') = Some q -> p_par q <> pid) /\
  ((exists rp, run_of h (p_par p) = Some rp /\ forall es, p_exs p = Some es -> sa_h (act_of rp es) <> HIgn) ->
     exists q, get pid (h_procs h') = Some q /\ p_st q = PZom (Exited (Z.land code 255)) /\ p_par q = p_par p) /\
  (~ (exists rp, run_of h (p_par p) = Some rp /\ forall es, p_exs p = Some es -> sa_h (act_of rp es) <> HIgn) -> get pid (h_procs h') = None) /\
  (forall rp es, run_of h (p_par p) = Some rp -> p_exs p = Some es ->
     (In (OQueue (DPr (p_par p)) (mkInfo es (CldExited pid (Z.land code 255)))) o' <-> ~ discards rp es /\ shas (n_pend rp) es = false)).
Proof. exact exit_law. Qed.
Print Assumptions C49_exit.
(** The parent handles SIGCHLD. *)
Definition cared : list op := [PSpawn] ++ C (Sigaction 17 (Some hf)) ++ C fork ++ [PCall (Io true) None; T; PLoop None].
Example C49_exit_ex : runs_ok cared = true /\ h_cur (at_end cared) = Some (1001, 1001, MApp) /\ can cared (PCall (ExitGroup 259) None) = true /\
  next_obs cared (PCall (ExitGroup 259) None) = [OCall 1001 1001 (ExitGroup 259); OQueue (DPr 1000) (mkInfo 17 (CldExited 1001 3)); ODied 1001 (Exited 3)].
Proof. gos. Qed.

(** The same for a signal whose default action ends the process (not the ones that are ignored by default, and not the
    ones that stop or continue it, which panic). *)
Theorem C49_killed : forall xs h o io h' o' pid tid d i p r, steps host_new xs = Some (h, o) -> step h (PLoop io) = Some (h', o') -> In (OTake pid tid d i) o' ->
  get pid (h_procs h) = Some p -> p_st p = PRun r -> sa_h (act_of r (si_sig i)) = HDfl -> ~ In (si_sig i) [17; 23; 28; 18; 19; 20; 21; 22] ->
  h_cur h' = None /\ run_of h' pid = None /\ In (ODied pid (Signaled (si_sig i))) o' /\
  (forall z q, get z (h_procs h') = Some q -> p_par q <> pid) /\
  ((exists rp, run_of h (p_par p) = Some rp /\ forall es, p_exs p = Some es -> sa_h (act_of rp es) <> HIgn) ->
     exists q, get pid (h_procs h') = Some q /\ p_st q = PZom (Signaled (si_sig i)) /\ p_par q = p_par p) /\
  (~ (exists rp, run_of h (p_par p) = Some rp /\ forall es, p_exs p = Some es -> sa_h (act_of rp es) <> HIgn) -> get pid (h_procs h') = None) /\
  (forall rp es, run_of h (p_par p) = Some rp -> p_exs p = Some es ->
     (In (OQueue (DPr (p_par p)) (mkInfo es (CldKilled pid (si_sig i)))) o' <-> ~ discards rp es /\ shas (n_pend rp) es = false)).
Proof. exact killed_law. Qed.
Print Assumptions C49_killed.
(** The child sends itself SIGTERM; the parent handles SIGCHLD. *)
Example C49_killed_ex : runs_ok (cared ++ [PCall (Kill 1001 15) None]) = true /\ can (cared ++ [PCall (Kill 1001 15) None]) (PLoop None) = true /\
  next_obs (cared ++ [PCall (Kill 1001 15) None]) (PLoop None) = [OTake 1001 1001 (DPr 1001) (mkInfo 15 (SiUser 1001)); OQueue (DPr 1000) (mkInfo 17 (CldKilled 1001 15)); ODied 1001 (Signaled 15)].
Proof. gos. Qed.

(** What a signal says about the end of a child is how the child ended, at that moment. *)
Theorem C49_told_exited : forall h x h' o d sg pid c, step h x = Some (h', o) -> In (OQueue d (mkInfo sg (CldExited pid c))) o -> In (ODied pid (Exited c)) o.
Proof. exact told_exit. Qed.
Print Assumptions C49_told_exited.
Theorem C49_told_killed : forall h x h' o d sg pid k, step h x = Some (h', o) -> In (OQueue d (mkInfo sg (CldKilled pid k))) o -> In (ODied pid (Signaled k)) o.
Proof. exact told_kill. Qed.
Print Assumptions C49_told_killed.
Example C49_told_ex : In (OQueue (DPr 1000) (mkInfo 17 (CldExited 1001 3))) (next_obs cared (PCall (ExitGroup 259) None)) /\
  In (OQueue (DPr 1000) (mkInfo 17 (CldKilled 1001 15))) (next_obs (cared ++ [PCall (Kill 1001 15) None]) (PLoop None)).
Proof. vm_compute. tauto. Qed.

(** The children of a process that calls exit_group get the signal they asked for with PR_SET_PDEATHSIG. *)
Theorem C49_pdeath : forall xs h o pid tid code io h' o' z q rz d, steps host_new xs = Some (h, o) -> h_cur h = Some (pid, tid, MApp) ->
  step h (PCall (ExitGroup code) io) = Some (h', o') -> get z (h_procs h) = Some q -> p_st q = PRun rz -> p_par q = pid -> p_pdeath q = Some d ->
  (In (OQueue (DPr z) (mkInfo d (SiUser pid))) o' <-> ~ discards rz d /\ shas (n_pend rz) d = false).
Proof. exact pdeath_law. Qed.
Print Assumptions C49_pdeath.
(** The child has asked for signal 10 and its parent runs. *)
Definition heirs : list op := family ++ [PCall (Io true) None; T; PLoop None] ++ C (SetPdeathsig 10) ++ [PCall (Io true) None; PTrig 1000 1000; PTask true (Some 5); PLoop None].
Example C49_pdeath_ex : runs_ok heirs = true /\ h_cur (at_end heirs) = Some (1000, 1000, MApp) /\ can heirs (PCall (ExitGroup 3) None) = true /\
  (exists q rz, get 1001 (h_procs (at_end heirs)) = Some q /\ p_st q = PRun rz /\ p_par q = 1000 /\ p_pdeath q = Some 10) /\
  In (OQueue (DPr 1001) (mkInfo 10 (SiUser 1000))) (next_obs heirs (PCall (ExitGroup 3) None)).
Proof. split; [go|]. split; [go|]. split; [go|]. split; [eexists _, _; split; [go|]; split; [go|]; split; [go|go]|]. vm_compute. tauto. Qed.

Theorem C49_set_pdeath : forall xs h o pid tid s io h' o' p, steps host_new xs = Some (h, o) -> h_cur h = Some (pid, tid, MApp) -> get pid (h_procs h) = Some p ->
  step h (PCall (SetPdeathsig s) io) = Some (h', o') ->
  (~ 0 <= s <= 64 -> completes h' pid tid (SetPdeathsig s) (- EINVAL) /\ h_procs h' = h_procs h) /\
  (0 <= s <= 64 -> completes h' pid tid (SetPdeathsig s) 0 /\ forall z, get z (h_procs h') = if z =? pid then Some (set_pdeath p (if s =? 0 then None else Some s)) else get z (h_procs h)).
Proof. exact set_pdeath_law. Qed.
Print Assumptions C49_set_pdeath.
Example C49_set_pdeath_ex : runs_ok heirs = true /\ can heirs (PCall (SetPdeathsig 65) None) = true /\
  h_cur (next heirs (PCall (SetPdeathsig 65) None)) = Some (1000, 1000, MSig (mkRet (- EINVAL) false (Some (SetPdeathsig 65))) true).
Proof. gos. Qed.

(** exit ends one thread; with the last one the process ends, and its status is what the thread that has the id of the
    process gave to exit. *)
Theorem C49_exit_thread : forall xs h o pid tid code io h' o' r, steps host_new xs = Some (h, o) -> h_cur h = Some (pid, tid, MApp) -> run_of h pid = Some r ->
  step h (PCall (Exit code) io) = Some (h', o') ->
  h_cur h' = None /\
  ((exists x, x <> tid /\ get x (n_thr r) <> None) -> o' = [OCall pid tid (Exit code)] /\ (forall z, z <> pid -> get z (h_procs h') = get z (h_procs h)) /\
     exists r', run_of h' pid = Some r' /\ n_pend r' = n_pend r /\ n_acts r' = n_acts r /\ forall x, get x (n_thr r') = if x =? tid then None else get x (n_thr r)) /\
  ((forall x, x <> tid -> get x (n_thr r) = None) -> In (ODied pid (Exited (leader_code pid 0 (o ++ o')))) o' /\ run_of h' pid = None).
Proof. exact exit_thread_law. Qed.
Print Assumptions C49_exit_thread.
(** The first thread has exited with 5, the second one runs. *)
Definition left_over : list op := pair_of_threads ++ [PCall (Exit 5) None; T].
Example C49_exit_thread_ex : runs_ok left_over = true /\ h_cur (at_end left_over) = Some (1000, 1001, MApp) /\ can left_over (PCall (Exit 7) None) = true /\
  next_obs left_over (PCall (Exit 7) None) = [OCall 1000 1001 (Exit 7); ODied 1000 (Exited 5); OFreed 1000].
Proof. gos. Qed.

(** Refuted: a wait is woken for every child: a child without exit signal has ended, the wait would report it, and
    nothing is scheduled. *)
Definition silent_child : list op := [PSpawn] ++ C (Clone (mkC false false false false false false false false) 0) ++ [PCall (Wait4 (-1) WALL) None; T; PLoop None; PCall (ExitGroup 3) None].
Theorem C49_unwoken_refuted : exists h o t k q, steps host_new silent_child = Some (h, o) /\ h_cur h = None /\ h_tasks h = [] /\
  thr_of h 1000 1000 = Some t /\ t_st t = TBlk k /\ c_call k = Wait4 (-1) WALL /\ selects4 h 1000 (-1) WALL 1001 q /\ ended q.
Proof.
  eexists _, _, _, _, _. split; [go|]. split; [go|]. split; [go|]. split; [go|]. split; [go|]. split; [go|].
  split; [split; [go|]; split; [go|]; split; [left; reflexivity|left; reflexivity]|eexists; go].
Qed.
Print Assumptions C49_unwoken_refuted.

(* ------------------------------------------------------------------ C50 *)
(** A group lies within one session. *)
Theorem C50_session : forall xs h o a p b q, steps host_new xs = Some (h, o) -> get a (h_procs h) = Some p -> get b (h_procs h) = Some q -> p_pgid p = p_pgid q -> p_sid p = p_sid q.
Proof. exact same_group. Qed.
Print Assumptions C50_session.
Example C50_session_ex : runs_ok group_run = true /\ exists p q, get 1000 (h_procs (at_end group_run)) = Some p /\ get 1001 (h_procs (at_end group_run)) = Some q /\ p_pgid p = p_pgid q.
Proof. split; [go|]. eexists _, _. gos. Qed.

(** The process a group is named after is in the session of the group. *)
Theorem C50_leader : forall xs h o a p b q, steps host_new xs = Some (h, o) -> get a (h_procs h) = Some p -> get b (h_procs h) = Some q -> p_pgid p = b -> p_sid p = p_sid q.
Proof. exact leader_session. Qed.
Print Assumptions C50_leader.
Example C50_leader_ex : runs_ok group_run = true /\ exists p q, get 1001 (h_procs (at_end group_run)) = Some p /\ get 1000 (h_procs (at_end group_run)) = Some q /\ p_pgid p = 1000.
Proof. split; [go|]. eexists _, _. gos. Qed.

(** setpgid succeeds exactly for the caller or a child of it, in the same session, that is not a session leader, and a
    group of that session. *)
Theorem C50_setpgid : forall xs h o pid tid x g io h' o' p, steps host_new xs = Some (h, o) -> h_cur h = Some (pid, tid, MApp) -> get pid (h_procs h) = Some p ->
  step h (PCall (Setpgid x g) io) = Some (h', o') -> 0 <= x -> 0 <= g ->
  let tgt := if x =? 0 then pid else x in
  o' = [OCall pid tid (Setpgid x g)] /\
  (get tgt (h_procs h) = None -> completes h' pid tid (Setpgid x g) (- ESRCH) /\ h_procs h' = h_procs h) /\
  (forall q, get tgt (h_procs h) = Some q ->
     (may_setpgid h pid tgt g p q -> completes h' pid tid (Setpgid x g) 0 /\
        forall z, get z (h_procs h') = if z =? tgt then Some (set_pgid q (if g =? 0 then tgt else g)) else get z (h_procs h)) /\
     (~ may_setpgid h pid tgt g p q -> (completes h' pid tid (Setpgid x g) (- ESRCH) \/ completes h' pid tid (Setpgid x g) (- EPERM)) /\ h_procs h' = h_procs h)).
Proof. exact setpgid_law. Qed.
Print Assumptions C50_setpgid.
Example C50_setpgid_ex : runs_ok group_run = true /\ h_cur (at_end group_run) = Some (1000, 1000, MApp) /\ can group_run (PCall (Setpgid 1001 0) None) = true /\
  exists q, get 1001 (h_procs (next group_run (PCall (Setpgid 1001 0) None))) = Some q /\ p_pgid q = 1001.
Proof. split; [go|]. split; [go|]. split; [go|]. eexists. split; go. Qed.

(** What getpgid and getsid answer. *)
Theorem C50_getpgid : forall xs h o pid tid x io h' o' p, steps host_new xs = Some (h, o) -> h_cur h = Some (pid, tid, MApp) -> get pid (h_procs h) = Some p ->
  step h (PCall (Getpgid x) io) = Some (h', o') -> 0 <= x ->
  o' = [OCall pid tid (Getpgid x)] /\ h_procs h' = h_procs h /\
  completes h' pid tid (Getpgid x) (if x =? 0 then p_pgid p else match get x (h_procs h) with Some q => p_pgid q | None => - ESRCH end).
Proof. exact getpgid_law. Qed.
Print Assumptions C50_getpgid.
Example C50_getpgid_ex : runs_ok group_run = true /\ can group_run (PCall (Getpgid 1001) None) = true /\
  h_cur (next group_run (PCall (Getpgid 1001) None)) = Some (1000, 1000, MSig (mkRet 1000 false (Some (Getpgid 1001))) true).
Proof. gos. Qed.

Theorem C50_getsid : forall xs h o pid tid x io h' o' p, steps host_new xs = Some (h, o) -> h_cur h = Some (pid, tid, MApp) -> get pid (h_procs h) = Some p ->
  step h (PCall (Getsid x) io) = Some (h', o') -> 0 <= x ->
  o' = [OCall pid tid (Getsid x)] /\ h_procs h' = h_procs h /\
  completes h' pid tid (Getsid x) (if x =? 0 then p_sid p else match get x (h_procs h) with Some q => p_sid q | None => - ESRCH end).
Proof. exact getsid_law. Qed.
Print Assumptions C50_getsid.
Example C50_getsid_ex : runs_ok group_run = true /\ can group_run (PCall (Getsid 1001) None) = true /\
  h_cur (next group_run (PCall (Getsid 1001) None)) = Some (1000, 1000, MSig (mkRet 1000 false (Some (Getsid 1001))) true).
Proof. gos. Qed.

(** setsid makes a new session and a new group, unless a group is named after the caller. *)
Theorem C50_setsid : forall xs h o pid tid io h' o' p, steps host_new xs = Some (h, o) -> h_cur h = Some (pid, tid, MApp) -> get pid (h_procs h) = Some p ->
  step h (PCall Setsid io) = Some (h', o') ->
  ((exists z q, get z (h_procs h) = Some q /\ p_pgid q = pid) -> completes h' pid tid Setsid (- EPERM) /\ h_procs h' = h_procs h) /\
  (~ (exists z q, get z (h_procs h) = Some q /\ p_pgid q = pid) -> completes h' pid tid Setsid pid /\
     forall z, get z (h_procs h') = if z =? pid then Some (set_pgid (set_sid p pid) pid) else get z (h_procs h)).
Proof. exact setsid_law. Qed.
Print Assumptions C50_setsid.
Example C50_setsid_ex : runs_ok family = true /\ can family (PCall Setsid None) = true /\ exists p, get 1000 (h_procs (next family (PCall Setsid None))) = Some p /\ p_sid p = 1000.
Proof. split; [go|]. split; [go|]. eexists. split; go. Qed.

(** Refuted: setpgid(p, p), the usual way to make a group, does what setpgid(p, 0) does. *)
Theorem C50_explicit_refuted : exists xs h o p h1 o1 h2 o2, steps host_new xs = Some (h, o) /\ get 1000 (h_procs h) = Some p /\ p_sid p <> 1000 /\
  step h (PCall (Setpgid 1000 0) None) = Some (h1, o1) /\ completes h1 1000 1000 (Setpgid 1000 0) 0 /\
  step h (PCall (Setpgid 1000 1000) None) = Some (h2, o2) /\ completes h2 1000 1000 (Setpgid 1000 1000) (- EPERM).
Proof. exists family. eexists _, _, _, _, _, _, _. split; [go|]. split; [go|]. split; [vm_compute; discriminate|]. split; [go|]. split; [go|]. split; go. Qed.
Print Assumptions C50_explicit_refuted.

(* ------------------------------------------------------------------ C51 *)
(** No step crashes but those that [step_fault] lists. *)
Theorem C51_step_partial : forall xs h o x, steps host_new xs = Some (h, o) -> ~ step_fault h x -> exists h' o', step h x = Some (h', o').
Proof. exact step_safe. Qed.
Print Assumptions C51_step_partial.
Example C51_step_ex : runs_ok over = true /\ ~ step_fault (at_end over) T.
Proof.
  split; [go|]. assert (HC : h_cur (at_end over) = None) by go. assert (HT : h_tasks (at_end over) = [TkWake 1000 1000 0 TrChild]) by go. unfold step_fault. rewrite HC, HT. cbn [T].
  intros (t & ts & E & F). injection E as <- <-. cbn [task_fault] in F. destruct F as (c & (t & k & TH & ST & CC) & F).
  assert (X : thr_of (at_end over) 1000 1000 = Some t -> t_st t = TBlk k -> c_call k = Wait4 (-1) W0).
  { vm_compute. intros [= <-] [= <-]. reflexivity. }
  rewrite (X TH ST) in CC. subst c. cbn [call_fault] in F. discriminate F.
Qed.

Theorem C51_runs_partial : forall xs, (forall ys x zs h o, xs = ys ++ x :: zs -> steps host_new ys = Some (h, o) -> ~ step_fault h x) -> exists h o, steps host_new xs = Some (h, o).
Proof. exact steps_safe. Qed.
Print Assumptions C51_runs_partial.
Example C51_runs_ex : forall ys x zs h o, [PSpawn; PTask true None] = ys ++ x :: zs -> steps host_new ys = Some (h, o) -> ~ step_fault h x.
Proof.
  intros ys x zs h o E XS. destruct ys as [|y ys]; [injection E as <- _; injection XS as <- _; intros []|]. injection E as <- E. destruct ys as [|y' ys]; [|destruct ys; discriminate E].
  injection E as <- _. vm_compute in XS. injection XS as <- _. intros [].
Qed.

(** Refuted: that none crashes.  The default actions of SIGCONT and of the stop signals, *)
Theorem C51_cont_refuted : exists xs h o, steps host_new xs = Some (h, o) /\ step h (PLoop None) = None.
Proof. exists ([PSpawn; PCall (Kill 1000 18) None]). eexists _, _. split; [go|go]. Qed.
Print Assumptions C51_cont_refuted.
Theorem C51_stop_refuted : exists xs h o, steps host_new xs = Some (h, o) /\ step h (PLoop None) = None.
Proof. exists ([PSpawn; PCall (Kill 1000 20) None]). eexists _, _. split; [go|go]. Qed.
Print Assumptions C51_stop_refuted.
(** a realtime signal as exit signal or as parent death signal, *)
Theorem C51_exit_signal_refuted : exists xs h o, steps host_new xs = Some (h, o) /\ step h (PCall (ExitGroup 0) None) = None.
Proof. exists ([PSpawn] ++ C (Clone (mkC false false false false false false false false) 40) ++ [PCall (Io false) None; T; PLoop None]). eexists _, _. split; [go|go]. Qed.
Print Assumptions C51_exit_signal_refuted.
Theorem C51_pdeathsig_refuted : exists xs h o, steps host_new xs = Some (h, o) /\ step h (PCall (ExitGroup 0) None) = None.
Proof. exists (family ++ [PCall (Io false) None; T; PLoop None] ++ C (SetPdeathsig 40) ++ [PCall (Io false) None; PTrig 1000 1000; PTask true (Some 0); PLoop None]). eexists _, _. split; [go|go]. Qed.
Print Assumptions C51_pdeathsig_refuted.
(** wait4 with the least integer, waitid with a pidfd, *)
Theorem C51_wait4_refuted : exists xs h o, steps host_new xs = Some (h, o) /\ step h (PCall (Wait4 (- 2147483648) W0) None) = None.
Proof. exists [PSpawn]. eexists _, _. split; [go|go]. Qed.
Print Assumptions C51_wait4_refuted.
Theorem C51_pidfd_refuted : exists xs h o, steps host_new xs = Some (h, o) /\ step h (PCall (Waitid PPidfd 3 W0) None) = None.
Proof. exists family. eexists _, _. split; [go|go]. Qed.
Print Assumptions C51_pidfd_refuted.
(** exec while another thread waits for children, exec by two threads. *)
Theorem C51_exec_wait_refuted : exists xs h o, steps host_new xs = Some (h, o) /\ step h T = None.
Proof. exists ([PSpawn] ++ C fork ++ C thread ++ [PCall (Wait4 (-1) W0) None; T; PLoop None; PCall (Io true) None; T; PCall (Execve true) None]). eexists _, _. split; [go|go]. Qed.
Print Assumptions C51_exec_wait_refuted.
Theorem C51_exec_exec_refuted : exists xs h o, steps host_new xs = Some (h, o) /\ step h T = None.
Proof. exists ([PSpawn] ++ C thread ++ C thread ++ [PCall (Io true) None; T; PCall (Execve true) None; T; PCall (Execve true) None; T; PCall (Io true) None]). eexists _, _. split; [go|go]. Qed.
Print Assumptions C51_exec_exec_refuted.

(* ------------------------------------------------------------------ C52 *)
(** fork and the like: the new process has an id that was not used, group and session of its creator, a copy of its
    actions, one thread and nothing pending. *)
Theorem C52_clone : forall xs h o pid tid fl raw io h' o' p r, steps host_new xs = Some (h, o) -> h_cur h = Some (pid, tid, MApp) -> get pid (h_procs h) = Some p -> p_st p = PRun r ->
  plain_clone fl raw -> step h (PCall (Clone fl raw) io) = Some (h', o') ->
  exists id c rc, get id (h_procs h) = None /\ pid < id /\ (forall z q, get z (h_procs h) = Some q -> z < id) /\ completes h' pid tid (Clone fl raw) id /\
    o' = [OCall pid tid (Clone fl raw); OBorn id (p_par c)] /\ get id (h_procs h') = Some c /\ (forall z, z <> id -> get z (h_procs h') = get z (h_procs h)) /\
    p_par c = (if cf_parent fl then p_par p else pid) /\ p_pgid c = p_pgid p /\ p_sid c = p_sid p /\ p_exs c = (if raw =? 0 then None else Some raw) /\ p_pdeath c = None /\
    p_st c = PRun rc /\ n_pend rc = 0 /\ (forall s, act_of rc s = if cf_clear fl then act_default else act_of r s) /\
    (exists t, n_thr rc = [(id, t)] /\ t_pend t = 0 /\ t_frames t = []) /\ In (TkResume id id) (h_tasks h').
Proof. exact clone_law. Qed.
Print Assumptions C52_clone.
Example C52_clone_ex : runs_ok struck = true /\ plain_clone (mkC false false false false false false false false) 17 /\ runs_ok (struck ++ [PLoop None]) = true /\
  h_cur (at_end (struck ++ [PLoop None])) = Some (1000, 1000, MApp) /\ can (struck ++ [PLoop None]) (PCall fork None) = true.
Proof. split; [go|]. split; [unfold plain_clone; cbn; intuition (discriminate || lia)|]. gos. Qed.

(** In the child fork returns 0. *)
Theorem C52_child : forall xs h o id ts sat io t r h' o', steps host_new xs = Some (h, o) -> h_cur h = None -> h_tasks h = TkResume id id :: ts -> run_of h id = Some r -> get id (n_thr r) = Some t -> t_st t = TNew true ->
  step h (PTask sat io) = Some (h', o') -> h_cur h' = Some (id, id, MSig (mkRet 0 false None) true) /\ o' = [].
Proof. exact child_starts. Qed.
Print Assumptions C52_child.
Example C52_child_ex : runs_ok (family ++ [PCall (Io true) None]) = true /\ h_tasks (at_end (family ++ [PCall (Io true) None])) = [TkResume 1001 1001] /\
  exists r t, run_of (at_end (family ++ [PCall (Io true) None])) 1001 = Some r /\ get 1001 (n_thr r) = Some t /\ t_st t = TNew true.
Proof. split; [go|]. split; [go|]. eexists _, _. gos. Qed.

(** A new thread of the process: its id was not used, nothing is pending, and nothing else changes. *)
Theorem C52_thread : forall xs h o pid tid fl io h' o' r, steps host_new xs = Some (h, o) -> h_cur h = Some (pid, tid, MApp) -> run_of h pid = Some r ->
  cf_thread fl = true -> cf_sighand fl = true -> cf_vm fl = true -> cf_settls fl = true -> cf_clear fl = false -> cf_other fl = false ->
  step h (PCall (Clone fl 0) io) = Some (h', o') ->
  o' = [OCall pid tid (Clone fl 0)] /\ exists id t, completes h' pid tid (Clone fl 0) id /\ (forall z q x, run_of h z = Some q -> In x (z :: keys (n_thr q)) -> x < id) /\
    only_thread h h' pid id /\ thr_of h' pid id = Some t /\ t_pend t = 0 /\ t_frames t = [] /\ t_st t = TNew false /\ In (TkResume pid id) (h_tasks h').
Proof. exact thread_law. Qed.
Print Assumptions C52_thread.
Example C52_thread_ex : runs_ok struck = true /\ h_cur (at_end (struck ++ [PLoop None])) = Some (1000, 1000, MApp) /\ can (struck ++ [PLoop None]) (PCall thread None) = true /\
  h_cur (next (struck ++ [PLoop None]) (PCall thread None)) = Some (1000, 1000, MSig (mkRet 1001 false (Some thread)) true).
Proof. gos. Qed.

(** It starts in the application, without a call to return from. *)
Theorem C52_thread_start : forall xs h o pid id ts sat io t r h' o', steps host_new xs = Some (h, o) -> h_cur h = None -> h_tasks h = TkResume pid id :: ts -> run_of h pid = Some r -> get id (n_thr r) = Some t -> t_st t = TNew false ->
  step h (PTask sat io) = Some (h', o') -> h_cur h' = Some (pid, id, MApp) /\ o' = [].
Proof. exact thread_starts. Qed.
Print Assumptions C52_thread_start.
Example C52_thread_start_ex : runs_ok (pair_of_threads ++ [PCall (Io true) None]) = true /\ h_tasks (at_end (pair_of_threads ++ [PCall (Io true) None])) = [TkResume 1000 1001] /\
  exists r t, run_of (at_end (pair_of_threads ++ [PCall (Io true) None])) 1000 = Some r /\ get 1001 (n_thr r) = Some t /\ t_st t = TNew false.
Proof. split; [go|]. split; [go|]. eexists _, _. gos. Qed.

(** exec: one thread is left, with the id of the process; mask, pending and ignored signals stay, handlers are reset. *)
Theorem C52_exec : forall xs h o pid tid ts sat io r t p h' o', steps host_new xs = Some (h, o) -> h_cur h = None -> h_tasks h = TkExec pid tid :: ts ->
  get pid (h_procs h) = Some p -> p_st p = PRun r -> get tid (n_thr r) = Some t -> step h (PTask sat io) = Some (h', o') ->
  o' = [OExec pid tid] /\ h_cur h' = Some (pid, pid, MApp) /\
  exists p' r' t', get pid (h_procs h') = Some p' /\ p_st p' = PRun r' /\ n_thr r' = [(pid, t')] /\
    p_par p' = p_par p /\ p_pgid p' = p_pgid p /\ p_sid p' = p_sid p /\ p_exs p' = Some 17 /\
    t_mask t' = t_mask t /\ t_frames t' = [] /\
    (forall s, shas (t_pend t') s = shas (t_pend t) s) /\ (forall s, shas (n_pend r') s = shas (n_pend r) s) /\
    (forall s, 1 <= s <= 31 -> sa_h (act_of r' s) = match sa_h (act_of r s) with HFun _ => HDfl | x => x end).
Proof. exact exec_law. Qed.
Print Assumptions C52_exec.
(** The second thread calls exec. *)
Definition exec_run : list op := pair_of_threads ++ C (Sigprocmask 0 (Some (sbit 12))) ++ [PCall (Io true) None; T; PCall (Execve true) None].
Example C52_exec_ex : runs_ok exec_run = true /\ h_cur (at_end exec_run) = None /\ h_tasks (at_end exec_run) = [TkExec 1000 1001] /\ can exec_run T = true.
Proof. gos. Qed.

(** Refuted: the child of fork blocks the signals that its parent blocks. *)
Theorem C52_mask_refuted : exists xs h o r t rc tc, steps host_new xs = Some (h, o) /\ run_of h 1000 = Some r /\ get 1000 (n_thr r) = Some t /\ shas (t_mask t) 10 = true /\
  In (ORet 1000 1000 fork 1001) o /\ run_of h 1001 = Some rc /\ get 1001 (n_thr rc) = Some tc /\ shas (t_mask tc) 10 = false.
Proof.
  exists ([PSpawn] ++ C (Sigprocmask 0 (Some (sbit 10))) ++ C fork). eexists _, _, _, _, _, _. split; [go|]. split; [go|]. split; [go|]. split; [go|]. split; [vm_compute; tauto|]. gos.
Qed.
Print Assumptions C52_mask_refuted.

(** Refuted: a new thread blocks the signals that its creator blocks. *)
Theorem C52_thread_mask_refuted : exists xs h o r t tc, steps host_new xs = Some (h, o) /\ run_of h 1000 = Some r /\ get 1000 (n_thr r) = Some t /\ shas (t_mask t) 10 = true /\
  In (ORet 1000 1000 thread 1001) o /\ get 1001 (n_thr r) = Some tc /\ shas (t_mask tc) 10 = false.
Proof.
  exists ([PSpawn] ++ C (Sigprocmask 0 (Some (sbit 10))) ++ C thread). eexists _, _, _, _, _. split; [go|]. split; [go|]. split; [go|]. split; [go|]. split; [vm_compute; tauto|]. gos.
Qed.
Print Assumptions C52_thread_mask_refuted.
