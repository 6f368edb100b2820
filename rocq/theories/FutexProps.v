(** Properties C53 and C54: futexes. *)
From Verif Require Import Base FMap TimeModel FutexModel FutexSpec FutexLaws FutexStep.

Definition START : Z := EMUTIME_SIMULATION_START.
Definition sec (n : Z) : tsp := TPtr (Some {| tv_sec := n; tv_nsec := 0 |}).
Definition sec' (n : Z) : option timespec := Some {| tv_sec := n; tv_nsec := 0 |}.
(** Four threads of process 1000 and one of process 1001; the word at 64 holds 5 in both. *)
Definition crew : list op :=
  [Spawn 1000 1000; Spawn 1001 1000; Spawn 1002 1000; Spawn 1003 1000; Spawn 1004 1004; Store 1000 64 (Some 5); Store 1004 64 (Some 5)].
(** Three of them wait, and the one of the other process. *)
Definition asleep : list op :=
  crew ++ [Futex 1001 0 64 5 TNull 0; Tick; Futex 1004 0 64 5 TNull 0; Futex 1002 128 64 5 TNull 0; Futex 1003 (9 + 256) 64 5 (sec 2000000000) U32_MAX].
Definition outs_of (ops : list op) : option (list out) := option_map snd (run (init START) ops).
Definition last_out (ops : list op) : option out := match outs_of ops with Some l => Some (last l Nothing) | None => None end.

(** * C53: waking *)

(** The futexes of a host behave, in every run, like one queue of waiting threads. *)
Theorem C53_refines : forall t0 ops, option_map snd (run (init t0) ops) = option_map snd (sp_run (sp_init t0) ops).
Proof. exact refines. Qed.
Print Assumptions C53_refines.
Example C53_refines_ex : outs_of (asleep ++ [Futex 1000 1 64 2 TNull 0; Resume 1001 None; Resume 1002 None; Resume 1003 None]) =
  Some [Nothing; Nothing; Nothing; Nothing; Nothing; Nothing; Nothing; Block; Nothing; Block; Block; Block; Ret 2 false; Ret 0 false; Ret 0 false; Nothing].
Proof. vm_compute. reflexivity. Qed.

(** FUTEX_WAKE wakes the threads that wait the longest at the word, as many as asked for, and returns how many. *)
Theorem C53_wake : forall t0 ops s outs tid opn va val ts val3 pid, run (init t0) ops = Some (s, outs) ->
  is_wake opn val3 = true -> 0 <= val ->
  exists p, sp_run (sp_init t0) ops = Some (p, outs) /\
  forall h, get tid (p_thr p) = Some h -> h_pid h = pid -> existsb (is_tid tid) (p_q p) = false ->
  nameable pid va = true ->
  exists s' p', step s (Futex tid opn va val ts val3) = Some (s', Ret (Z.min val (sleepers p pid va)) false) /\
    sp_run (sp_init t0) (ops ++ [Futex tid opn va val ts val3]) =
      Some (p', outs ++ [Ret (Z.min val (sleepers p pid va)) false]) /\
    filter (fun e => here pid va e && negb (e_woken e)) (p_q p') =
      skipn (Z.to_nat (Z.min val (sleepers p pid va))) (filter (fun e => here pid va e && negb (e_woken e)) (p_q p)) /\
    others_kept pid va p p' /\ p_mem p' = p_mem p /\ p_thr p' = p_thr p.
Proof. exact wake_law. Qed.
Print Assumptions C53_wake.
Example C53_wake_ex : last_out (asleep ++ [Futex 1000 1 64 2 TNull 0]) = Some (Ret 2 false) /\
  last_out (asleep ++ [Futex 1000 10 64 7 TNull U32_MAX]) = Some (Ret 3 false) /\ last_out (asleep ++ [Futex 1000 1 68 2 TNull 0]) = Some (Ret 0 false) /\
  option_map (fun x => map e_tid (filter (fun e => negb (e_woken e)) (p_q (fst x)))) (sp_run (sp_init START) (asleep ++ [Futex 1000 1 64 2 TNull 0])) = Some [1004; 1003].
Proof. vm_compute. auto. Qed.

(** A thread that exits clears its word and wakes one thread that waits there. *)
Theorem C53_exit : forall t0 ops s outs tid h, run (init t0) ops = Some (s, outs) ->
  exists p, sp_run (sp_init t0) ops = Some (p, outs) /\
  (get tid (p_thr p) = Some h -> existsb (is_tid tid) (p_q p) = false -> h_ctid h <> 0 ->
   (exists k g, k <> tid /\ get k (p_thr p) = Some g /\ h_pid g = h_pid h) ->
   p_mem p (h_pid h) (h_ctid h) <> None -> nameable (h_pid h) (h_ctid h) = true ->
   exists s' p', step s (Exit tid) = Some (s', Nothing) /\ sp_run (sp_init t0) (ops ++ [Exit tid]) = Some (p', outs ++ [Nothing]) /\
     p_mem p' (h_pid h) (h_ctid h) = Some 0 /\ get tid (p_thr p') = None /\
     filter (fun e => here (h_pid h) (h_ctid h) e && negb (e_woken e)) (p_q p') =
       tl (filter (fun e => here (h_pid h) (h_ctid h) e && negb (e_woken e)) (p_q p)) /\
     others_kept (h_pid h) (h_ctid h) p p').
Proof. exact exit_law. Qed.
Print Assumptions C53_exit.
Example C53_exit_ex : last_out (asleep ++ [SetTid 1000 64; Exit 1000; Resume 1001 None]) = Some (Ret 0 false) /\
  last_out (asleep ++ [SetTid 1000 64; Exit 1000; Resume 1002 None]) = Some Nothing /\
  last_out (asleep ++ [SetTid 1000 64; Exit 1000; Spawn 1005 1000; Futex 1005 0 64 5 TNull 0]) = Some (Ret (- EAGAIN) false).
Proof. vm_compute. auto. Qed.

(** Refuted: FUTEX_WAKE at any address returns. (Linux: EFAULT above the user's part of the address space.) *)
Theorem C53_address_refuted : exists ops, outs_of ops = Some [Nothing] /\ outs_of (ops ++ [Futex 1000 1 281474976710656 1 TNull 0]) = None.
Proof. exists [Spawn 1000 1000]. vm_compute. auto. Qed.
Print Assumptions C53_address_refuted.

(** Refuted: a process can use futexes whatever its id. *)
Theorem C53_pid_refuted : exists ops, outs_of ops = Some [Nothing] /\ outs_of (ops ++ [Futex 65536 1 64 1 TNull 0]) = None.
Proof. exists [Spawn 65536 65536]. vm_compute. auto. Qed.
Print Assumptions C53_pid_refuted.

(** * C54: waiting *)

(** A call blocks only if the word holds the value. *)
Theorem C54_blocks : forall t0 ops s outs tid opn va val ts val3 s',
  run (init t0) ops = Some (s, outs) -> step s (Futex tid opn va val ts val3) = Some (s', Block) ->
  exists p h, sp_run (sp_init t0) ops = Some (p, outs) /\ get tid (p_thr p) = Some h /\
    is_wait opn val3 = true /\ p_mem p (h_pid h) va = Some val /\ h_sig h = false.
Proof. exact block_law. Qed.
Print Assumptions C54_blocks.
Example C54_blocks_ex : last_out (crew ++ [Futex 1001 0 64 5 (sec 3) 0]) = Some Block.
Proof. vm_compute. reflexivity. Qed.

(** Without timeout: it blocks if the word holds the value and no signal is pending; else it fails and nothing changes. *)
Theorem C54_compare : forall t0 ops s outs tid opn va val val3 h, run (init t0) ops = Some (s, outs) -> is_wait opn val3 = true ->
  exists p, sp_run (sp_init t0) ops = Some (p, outs) /\
  (get tid (p_thr p) = Some h -> existsb (is_tid tid) (p_q p) = false -> nameable (h_pid h) va = true ->
   forall w, p_mem p (h_pid h) va = Some w ->
   exists s' p', step s (Futex tid opn va val TNull val3) =
       Some (s', if w =? val then if h_sig h then Ret (- EINTR) true else Block else Ret (- EAGAIN) false) /\
     option_map fst (sp_run (sp_init t0) (ops ++ [Futex tid opn va val TNull val3])) = Some p' /\
     p_q p' = (if (w =? val) && negb (h_sig h) then p_q p ++ [mkEnt tid (h_pid h) va None false false] else p_q p)).
Proof. exact compare_law. Qed.
Print Assumptions C54_compare.
Example C54_compare_ex : last_out (crew ++ [Futex 1001 0 64 5 TNull 0]) = Some Block /\ last_out (crew ++ [Futex 1001 0 64 6 TNull 0]) = Some (Ret (- EAGAIN) false) /\
  last_out (crew ++ [SetSig 1001 true; Futex 1001 0 64 5 TNull 0]) = Some (Ret (- EINTR) true).
Proof. vm_compute. auto. Qed.

(** A wait ends no later than its timeout, it says so exactly then, and a wait without timeout never does. *)
Theorem C54_timeout : forall t0 ops l1 tb tid opn va val ts val3 l2 te rd v rs l3,
  log (init t0) ops = Some (l1 ++ (tb, Futex tid opn va val ts val3, Block) :: l2 ++
                            (te, Resume tid rd, Ret v rs) :: l3) ->
  forallb (fun i => negb (begins tid i)) l2 = true ->
  over (until opn ts tb) te v.
Proof. exact timeout_law. Qed.
Print Assumptions C54_timeout.
Definition late : list op := crew ++ [Futex 1001 0 64 5 (sec 3) 0; Advance (START + 3000000000); TimerFires 1001; Resume 1001 (sec' 3)].
Example C54_timeout_ex : option_map (fun l => nth 10 l (0, Tick, Nothing)) (log (init START) late) = Some (START + 3000000000, Resume 1001 (sec' 3), Ret (- ETIMEDOUT) false) /\
  until 0 (sec 3) START = Some (START + 3000000000) /\ until 9 (sec 3) START = Some START.
Proof. vm_compute. auto. Qed.

(** From the wake that chose a thread until that thread has resumed, no time passes. *)
Theorem C54_prompt : forall t0 ops s outs e ops2 l, run (init t0) ops = Some (s, outs) -> log s ops2 = Some l ->
  (exists p, sp_run (sp_init t0) ops = Some (p, outs) /\ In e (p_q p) /\ e_woken e = true) ->
  forallb (fun i => negb (ends (e_tid e) (e_pid e) i)) l = true ->
  forallb (fun i => fst (fst i) =? now s) l = true.
Proof. exact prompt_law. Qed.
Print Assumptions C54_prompt.
Example C54_prompt_ex : option_map (map (fun i => fst (fst i)))
    (log (init START) (asleep ++ [Futex 1000 1 64 1 TNull 0; Advance (START + 7); Tick; Resume 1001 None; Advance (START + 7); Tick])) =
  Some (repeat START 17 ++ [START + 7]) /\
  option_map (fun x => map e_tid (filter e_woken (p_q (fst x)))) (sp_run (sp_init START) (asleep ++ [Futex 1000 1 64 1 TNull 0])) = Some [1001].
Proof. vm_compute. auto. Qed.

(** Each wakeup that was reported ends one wait successfully. Missing: runs with timeouts, signals, words that
    become unreadable, killed processes, where it is refuted below or cannot hold. *)
Theorem C54_conserves_partial : forall t0 ops l, forallb quiet ops = true -> log (init t0) ops = Some l ->
  exists p outs, sp_run (sp_init t0) ops = Some (p, outs) /\
    total reported l = total returned l + woken (p_q p) /\ existsb failed l = false.
Proof. exact conserve_law. Qed.
Print Assumptions C54_conserves_partial.
Definition calm_run : list op := crew ++ [Futex 1001 0 64 5 TNull 0; Futex 1002 0 64 5 TNull 0; Futex 1003 0 64 5 TNull 0; Futex 1000 1 64 2 TNull 0; Store 1000 64 (Some 6); Resume 1002 None].
Example C54_conserves_partial_ex : forallb quiet calm_run = true /\ option_map (total reported) (log (init START) calm_run) = Some 2 /\ option_map (total returned) (log (init START) calm_run) = Some 1.
Proof. vm_compute. auto. Qed.

(** Refuted: a wakeup that was reported ends a wait successfully. It is lost if the chosen thread's timeout
    ends in the same instant; another thread sleeps on. *)
Theorem C54_timeout_loses_refuted : exists ops,
  outs_of (crew ++ ops ++ [Futex 1000 1 64 1 TNull 0; Resume 1001 (sec' 3); Resume 1002 None]) =
    Some (repeat Nothing 7 ++ [Block; Block; Nothing; Ret 1 false; Ret (- ETIMEDOUT) false; Nothing]).
Proof. exists [Futex 1001 0 64 5 (sec 3) 0; Futex 1002 0 64 5 TNull 0; Advance (START + 3000000000)]. vm_compute. reflexivity. Qed.
Print Assumptions C54_timeout_loses_refuted.

(** Refuted: likewise, with a signal that arrives after the wakeup. *)
Theorem C54_signal_loses_refuted : exists ops,
  outs_of (crew ++ ops ++ [Futex 1000 1 64 1 TNull 0; SetSig 1001 true; Resume 1001 None; Resume 1002 None]) =
    Some (repeat Nothing 7 ++ [Block; Block; Ret 1 false; Nothing; Ret (- EINTR) false; Nothing]).
Proof. exists [Futex 1001 0 64 5 TNull 0; Futex 1002 0 64 5 TNull 0]. vm_compute. reflexivity. Qed.
Print Assumptions C54_signal_loses_refuted.

(** Refuted: a wait that a signal interrupts can be restarted after the handler. It can if the signal was
    pending before the thread slept, but not after. *)
Theorem C54_restart_refuted : exists ops1 ops2, last_out (crew ++ ops1) = Some (Ret (- EINTR) true) /\ last_out (crew ++ ops2) = Some (Ret (- EINTR) false).
Proof. exists [SetSig 1001 true; Futex 1001 0 64 5 TNull 0], [Futex 1001 0 64 5 TNull 0; SetSig 1001 true; SigWakes 1001; Resume 1001 None]. vm_compute. auto. Qed.
Print Assumptions C54_restart_refuted.

(** Refuted: a wait with any timeout returns or blocks. *)
Theorem C54_long_timeout_refuted : exists d, last_out (crew ++ [Futex 1001 0 64 5 (sec d) 0]) = Some Block /\
  outs_of (crew ++ [Advance (START + 1000000000); Futex 1001 0 64 5 (sec d) 0]) = None.
Proof. exists 17500059273. vm_compute. auto. Qed.
Print Assumptions C54_long_timeout_refuted.

(** Refuted: the result of a wait does not depend on what happens to the bytes of the timeout while it sleeps. *)
Theorem C54_reread_refuted : exists ops, last_out (crew ++ ops ++ [Resume 1001 (sec' 3)]) = Some (Ret 0 false) /\
  last_out (crew ++ ops ++ [Resume 1001 (sec' (-1))]) = Some (Ret (- EINVAL) false).
Proof. exists [Futex 1001 0 64 5 (sec 3) 0; Futex 1000 1 64 1 TNull 0]. vm_compute. auto. Qed.
Print Assumptions C54_reread_refuted.
