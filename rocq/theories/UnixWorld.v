(** The model of unix sockets refines the specification. *)
From Verif Require Import Base FMap UnixModel UnixSpec UnixFacts UnixInv UnixOps UnixLink UnixCall UnixSend UnixRecv UnixClose.

Lemma syscall_ok w S o : Inv w [] -> sim w S -> clean o -> does w (syscall w o) (s_step S o).
Proof.
  intros I A C. destruct o; cbn [clean] in C; try subst fault.
  - apply socket_ok; auto.
  - apply pair_ok; auto.
  - apply bind_ok; auto.
  - apply listen_ok; auto.
  - apply connect_ok; auto.
  - apply accept_ok; auto.
  - apply send_ok; auto.
  - apply recv_ok; auto.
  - apply close_ok; auto.
  - apply sockname_ok; auto.
  - apply peername_ok; auto.
  - apply nonblock_ok; auto.
Qed.
Lemma step_ok w S o : Inv w [] -> sim w S -> clean o ->
  match s_step S o with
  | None => step w o = None
  | Some (S', r) => exists w' ns, step w o = Some (w', r, ns) /\ Inv w' [] /\ sim w' S'
  end.
Proof.
  intros I A C. pose proof (syscall_ok w S o I A C) as D. unfold step, does in *. destruct (s_step S o) as [[S' r]|].
  - destruct D as (w1 & cs & E & I1 & A1). rewrite E. ob. destruct (run_queue_ok w1 cs S' I1 A1) as (w2 & ns & E2 & I2 & A2).
    rewrite E2. ob. eauto.
  - rewrite D. reflexivity.
Qed.
Lemma init_ok : Inv init [] /\ sim init k_init.
Proof.
  split.
  - constructor; try (intros; discriminate); try constructor; cbn; try lia; try (intros; discriminate).

  - split; [|split]; try reflexivity. intros t n x. split; [discriminate|]. intros (L & _). discriminate L.
Qed.
Lemma run_ok ops : forall w S, Inv w [] -> sim w S -> Forall clean ops ->
  match s_run S ops with
  | None => run w ops = None
  | Some (S', rs) => exists w' outs, run w ops = Some (w', outs) /\ map fst outs = rs /\ Inv w' [] /\ sim w' S'
  end.
Proof.
  induction ops as [|o ops IH]; intros w S I A F; cbn [s_run run].
  - exists w, []. auto.
  - inversion F as [|? ? C F']; subst. pose proof (step_ok w S o I A C) as H. destruct (s_step S o) as [[S1 r]|].
    + destruct H as (w1 & ns & E & I1 & A1). rewrite E. ob. specialize (IH w1 S1 I1 A1 F'). destruct (s_run S1 ops) as [[S2 rs]|]; ob.
      * destruct IH as (w2 & outs & E2 & M & I2 & A2). rewrite E2. ob. eexists _, _. split; [reflexivity|]. cbn. rewrite M. auto.
      * rewrite IH. reflexivity.
    + rewrite H. reflexivity.
Qed.
