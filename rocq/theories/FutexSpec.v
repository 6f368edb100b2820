(** What futexes promise, without tables, objects or listeners: a host has one queue
    of waiting threads in the order in which they began to wait. *)
From Verif Require Import Base FMap TimeModel FutexModel.

(** A thread that waits at a word of its process, until when, whether a wake has
    chosen it, and whether it is about to resume. *)
Record ent := mkEnt {
  e_tid : Z; e_pid : Z; e_va : Z; e_dl : option Z; e_woken : bool; e_soon : bool }.
(** A thread: its process, whether a signal is pending, the word it clears at exit. *)
Record sthr := mkSt' { h_pid : Z; h_sig : bool; h_ctid : Z }.
Record sp := mkSp { p_now : Z; p_mem : Z -> Z -> option Z; p_thr : fmap Z sthr; p_q : list ent }.

Definition with_q q p := mkSp (p_now p) (p_mem p) (p_thr p) q.

(** Words that Shadow can name: 16 bits of process and 48 bits of address. *)
Definition nameable (pid va : Z) : bool :=
  (0 <=? pid) && (pid <? 65536) && (0 <=? va) && (va <? 281474976710656).

(** The length of a valid timeout. *)
Definition length_of (t : timespec) : option Z :=
  let d := tv_sec t * 1000000000 + tv_nsec t in
  if (0 <=? tv_sec t) && (0 <=? tv_nsec t) && (tv_nsec t <? 1000000000) && (d <=? SIMTIME_MAX)
  then Some d else None.

Definition here (pid va : Z) (e : ent) : bool := (e_pid e =? pid) && (e_va e =? va).

(** Wake the first [n] threads waiting at the word that are not woken yet. *)
Fixpoint wake_first (pid va n : Z) (q : list ent) : list ent * Z :=
  match q with
  | [] => ([], 0)
  | e :: r =>
    if here pid va e && negb (e_woken e) && (0 <? n)
    then let '(r', k) := wake_first pid va (n - 1) r in
         (mkEnt (e_tid e) (e_pid e) (e_va e) (e_dl e) true true :: r', k + 1)
    else let '(r', k) := wake_first pid va n r in (e :: r', k)
  end.

Definition sp_wake (p : sp) (pid va n : Z) : option (sp * out) :=
  if nameable pid va then
    let '(q, k) := wake_first pid va n (p_q p) in Some (with_q q p, Ret k false)
  else None.

Definition sp_wait (p : sp) (tid : Z) (t : sthr) (va val : Z) (ts : tsp) (abs : bool) :
  option (sp * out) :=
  let go (dl : option Z) :=
    match p_mem p (h_pid t) va with
    | None => Some (p, err EFAULT)
    | Some v =>
      if negb (v =? val) then Some (p, err EAGAIN)
      else if negb (nameable (h_pid t) va) then None
      else if match dl with Some d => EMUTIME_MAX <? d | None => false end then None
      else if h_sig t then Some (p, Ret (- EINTR) true)
      else Some (with_q (p_q p ++ [mkEnt tid (h_pid t) va
                          (match dl with Some d => Some (Z.max d (p_now p)) | None => None end)
                          false false]) p, Block)
    end in
  match ts with
  | TNull => go None
  | TPtr None => Some (p, err EFAULT)
  | TPtr (Some x) =>
    match length_of x with
    | None => Some (p, err EINVAL)
    | Some d => go (Some (if abs then d else p_now p + d))
    end
  end.

Definition is_tid (tid : Z) (e : ent) : bool := e_tid e =? tid.
Definition leave (tid : Z) (q : list ent) : list ent := filter (fun e => negb (is_tid tid e)) q.

(** What a wait returns when its thread resumes. *)
Definition result (p : sp) (e : ent) (sig : bool) (rd : option timespec) : out :=
  let go (late : bool) :=
    match p_mem p (e_pid e) (e_va e) with
    | None => err EFAULT
    | Some _ => if late then err ETIMEDOUT else if sig then err EINTR else Ret 0 false
    end in
  match e_dl e with
  | None => go false
  | Some d => match rd with
              | None => err EFAULT
              | Some x => match length_of x with None => err EINVAL | Some _ => go (d <=? p_now p) end
              end
  end.

Definition soon (e : ent) : ent := mkEnt (e_tid e) (e_pid e) (e_va e) (e_dl e) (e_woken e) true.

Definition sp_upd (tid : Z) (f : sthr -> sthr) (p : sp) : sp :=
  match get tid (p_thr p) with
  | Some t => mkSp (p_now p) (p_mem p) (put tid (f t) (p_thr p)) (p_q p)
  | None => p
  end.

(** Time does not pass a thread that is about to resume nor the end of a timeout. *)
Definition sp_may_pass (t : Z) (p : sp) : bool :=
  (p_now p <=? t) && (t <=? EMUTIME_MAX) &&
  forallb (fun e => (negb (e_soon e) || (t <=? p_now p)) &&
                    match e_dl e with Some d => t <=? d | None => true end) (p_q p).

Definition sp_step (p : sp) (o : op) : option (sp * out) :=
  match o with
  | Spawn tid pid =>
    match get tid (p_thr p) with
    | Some _ => Some (p, Nothing)
    | None => Some (mkSp (p_now p) (p_mem p) (put tid (mkSt' pid false 0) (p_thr p)) (p_q p), Nothing)
    end
  | SetTid tid va => Some (sp_upd tid (fun t => mkSt' (h_pid t) (h_sig t) va) p, Nothing)
  | SetSig tid b => Some (sp_upd tid (fun t => mkSt' (h_pid t) b (h_ctid t)) p, Nothing)
  | Futex tid opn va val ts val3 =>
    match get tid (p_thr p), existsb (is_tid tid) (p_q p) with
    | Some t, false =>
      (* the flags FUTEX_PRIVATE_FLAG and FUTEX_CLOCK_REALTIME are ignored *)
      let oper := Z.ldiff opn (Z.lor 128 256) in
      if oper =? 0 then sp_wait p tid t va val ts false
      else if oper =? 1 then sp_wake p (h_pid t) va val
      else if val3 =? U32_MAX then
        if oper =? 9 then sp_wait p tid t va val ts true
        else if oper =? 10 then sp_wake p (h_pid t) va val
        else Some (p, err ENOSYS)
      else Some (p, err ENOSYS)
    | _, _ => Some (p, Nothing)
    end
  | Resume tid rd =>
    match get tid (p_thr p), find (is_tid tid) (p_q p) with
    | Some t, Some e =>
      if e_soon e then Some (with_q (leave tid (p_q p)) p, result p e (h_sig t) rd)
      else Some (p, Nothing)
    | _, _ => Some (p, Nothing)
    end
  | TimerFires tid =>
    Some (with_q (map (fun e => if is_tid tid e &&
                                   match e_dl e with Some d => d <=? p_now p | None => false end
                                then soon e else e) (p_q p)) p, Nothing)
  | SigWakes tid =>
    Some (with_q (map (fun e => if is_tid tid e then soon e else e) (p_q p)) p, Nothing)
  | Store pid va v =>
    Some (mkSp (p_now p) (fun x a => if (x =? pid) && (a =? va) then v else p_mem p x a)
            (p_thr p) (p_q p), Nothing)
  | Advance t =>
    Some (if sp_may_pass t p then mkSp t (p_mem p) (p_thr p) (p_q p) else p, Nothing)
  | Tick => Some (p, Nothing)
  | Exit tid =>
    match get tid (p_thr p), existsb (is_tid tid) (p_q p) with
    | Some t, false =>
      let p1 := mkSp (p_now p) (p_mem p) (del tid (p_thr p)) (p_q p) in
      if (h_ctid t =? 0) || negb (existsb (fun x => h_pid (snd x) =? h_pid t) (p_thr p1))
      then Some (p1, Nothing)
      else match p_mem p (h_pid t) (h_ctid t) with
           | None => None
           | Some _ =>
             let m x a := if (x =? h_pid t) && (a =? h_ctid t) then Some 0 else p_mem p x a in
             match sp_wake (mkSp (p_now p) m (p_thr p1) (p_q p)) (h_pid t) (h_ctid t) 1 with
             | Some (p2, _) => Some (p2, Nothing)
             | None => None
             end
           end
    | _, _ => Some (p, Nothing)
    end
  | Kill pid =>
    Some (mkSp (p_now p) (p_mem p) (filter (fun x => negb (h_pid (snd x) =? pid)) (p_thr p))
            (filter (fun e => negb (e_pid e =? pid)) (p_q p)), Nothing)
  end.

Definition sp_init (t0 : Z) : sp := mkSp t0 (fun _ _ => None) [] [].

Fixpoint sp_run (p : sp) (ops : list op) : option (sp * list out) :=
  match ops with
  | [] => Some (p, [])
  | o :: r => do (p1, x) <- sp_step p o; do (p2, xs) <- sp_run p1 r; Some (p2, x :: xs)
  end.

(** * Logs *)

(** What happened: time, operation, output. *)
Definition item : Type := Z * op * out.

Fixpoint log (s : st) (ops : list op) : option (list item) :=
  match ops with
  | [] => Some []
  | o :: r => do (s1, x) <- step s o; do xs <- log s1 r; Some ((now s, o, x) :: xs)
  end.

(** A wait of thread [tid] began. *)
Definition begins (tid : Z) (i : item) : bool :=
  match i with (_, Futex k _ _ _ _ _, Block) => k =? tid | _ => false end.

(** When a wait that begins at [t0] must be over. *)
Definition until (opn : Z) (ts : tsp) (t0 : Z) : option Z :=
  match ts with
  | TPtr (Some x) =>
    let d := tv_sec x * 1000000000 + tv_nsec x in
    Some (Z.max (if Z.ldiff opn (Z.lor 128 256) =? 0 then t0 + d else d) t0)
  | _ => None
  end.

(** The number of threads that can be woken at a word. *)
Definition sleepers (p : sp) (pid va : Z) : Z :=
  Z.of_nat (length (filter (fun e => here pid va e && negb (e_woken e)) (p_q p))).

Definition is_wake (opn val3 : Z) : bool :=
  let oper := Z.ldiff opn (Z.lor 128 256) in (oper =? 1) || ((oper =? 10) && (val3 =? U32_MAX)).
Definition is_wait (opn val3 : Z) : bool :=
  let oper := Z.ldiff opn (Z.lor 128 256) in (oper =? 0) || ((oper =? 9) && (val3 =? U32_MAX)).

(** Operations of a run without timeouts, signals, ends of processes, words cleared
    at exit or unreadable words. *)
Definition quiet (o : op) : bool :=
  match o with
  | Futex _ _ _ val ts _ => (0 <=? val) && match ts with TNull => true | _ => false end
  | SetTid _ _ | SigWakes _ | SetSig _ _ | Kill _ => false
  | Store _ _ None => false
  | _ => true
  end.

(** Wakeups that FUTEX_WAKE reported, and waits that returned 0. *)
Definition reported (i : item) : Z :=
  match i with (_, Futex _ opn _ _ _ val3, Ret k _) => if is_wake opn val3 then k else 0 | _ => 0 end.
Definition returned (i : item) : Z :=
  match i with (_, Resume _ _, Ret 0 _) => 1 | _ => 0 end.
Definition failed (i : item) : bool :=
  match i with (_, Resume _ _, Ret v _) => negb (v =? 0) | _ => false end.

(** The wait of thread [tid] of process [pid] is over. *)
Definition ends (tid pid : Z) (i : item) : bool :=
  match i with (_, Resume k _, Ret _ _) => k =? tid | (_, Kill k, _) => k =? pid | _ => false end.

(** Threads that were chosen by a wake and have not resumed yet. *)
Definition woken (q : list ent) : Z := Z.of_nat (length (filter e_woken q)).
Definition total (f : item -> Z) (l : list item) : Z := fold_right (fun i a => f i + a) 0 l.

(** What a wait with deadline [D] may return at [t1]. *)
Definition over (D : option Z) (t1 v : Z) : Prop :=
  match D with
  | Some d => t1 <= d /\ (v = - ETIMEDOUT -> t1 = d) /\
              (t1 = d -> v = - ETIMEDOUT \/ v = - EFAULT \/ v = - EINVAL)
  | None => v <> - ETIMEDOUT
  end.

(** Nobody leaves the queue or joins it, and the entries of other words are untouched. *)
Definition others_kept (pid va : Z) (p p' : sp) : Prop :=
  map e_tid (p_q p') = map e_tid (p_q p) /\
  filter (fun e => negb (here pid va e)) (p_q p') = filter (fun e => negb (here pid va e)) (p_q p).
