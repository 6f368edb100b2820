(** C24: epoll reports exactly the ready descriptors. *)
From Verif Require Import Base FMap EpollModel EpollSpec EpollMainProofs.

(** A wait reports only registered descriptors with events due, each once with all its due events and
    its registered data, and leaves none out unless the maximum is reached. *)
Theorem C24_wait : forall legacy h m l n w, runs legacy ((Wait m, Events l, n) :: h) w -> good_wait legacy h m l.
Proof. exact waits_main. Qed.
Print Assumptions C24_wait.

(** Adding, modifying and deleting succeed or fail as the registrations say. *)
Theorem C24_ctl : forall legacy h c k i d x n w, runs legacy ((Ctl c k i d, x, n) :: h) w -> x = ctl_result h c k.
Proof. exact ctl_main. Qed.
Print Assumptions C24_ctl.

(** The epoll file is readable exactly when some descriptor has an event due. *)
Theorem C24_readable : forall legacy h w, runs legacy h w ->
  (readable (ep w) = true <-> exists k b, due legacy h k b = true).
Proof. exact readable_main. Qed.
Print Assumptions C24_readable.

(** Its listeners are told of every change of that, and of nothing else. *)
Theorem C24_told : forall legacy h w, runs legacy h w -> readable (ep w) = told h /\
  match h with (_, _, n) :: h0 => alternates (told h0) n | [] => True end.
Proof. exact told_main. Qed.
Print Assumptions C24_told.

(** Between two reports of the same event of an edge-triggered registration there was an edge. *)
Theorem C24_edge : forall legacy h1 x h2 y k b w i d, runs legacy (y :: h2 ++ x :: h1) w ->
  reports_at x k b -> reports_at y k b -> registered (h2 ++ x :: h1) k = Some (i, d) -> et i = true ->
  exists a z c, h2 = a ++ z :: c /\ is_edge (c ++ x :: h1) z k b.
Proof. exact edge_main. Qed.
Print Assumptions C24_edge.

(** Between two reports of the same event of a one-shot registration it was registered again. Missing:
    the same for two reports of different events, which [C24_oneshot_refuted] shows does not hold. *)
Theorem C24_oneshot_partial : forall legacy h1 x h2 y k b w i d, runs legacy (y :: h2 ++ x :: h1) w ->
  reports_at x k b -> reports_at y k b -> registered (h2 ++ x :: h1) k = Some (i, d) -> oneshot i = true ->
  Exists (fun z => registers z k) h2.
Proof. exact oneshot_main. Qed.
Print Assumptions C24_oneshot_partial.

(** A descriptor with an event due throughout a piece of history is reported in it, if its waits
    offered room for as many reports as descriptors were ready at the start. *)
Theorem C24_fair : forall legacy h2 h1 w k ks, runs legacy (h2 ++ h1) w ->
  (forall a b, h2 = a ++ b -> ready_key legacy (b ++ h1) k) ->
  (forall k', ready_key legacy h1 k' -> In k' ks) -> Z.of_nat (length ks) <= room h2 ->
  Exists (fun x => exists b, reports_at x k b) h2.
Proof. exact fair_main. Qed.
Print Assumptions C24_fair.

(** No operation panics until the 64-bit priorities run out. *)
Theorem C24_no_panic : forall legacy h w o, runs legacy h w -> need h o + used h <= U64_MAX -> step legacy w o <> None.
Proof. exact no_panic_main. Qed.
Print Assumptions C24_no_panic.

Definition both : evs := {| ev_in := true; ev_out := true; ev_rdhup := false |}.
Definition st (r w : bool) : fstate :=
  {| st_active := true; st_readable := r; st_writable := w; st_closed := false; st_rdhup := false; st_other := false |}.
Definition lt : interest := {| want := both; et := false; oneshot := false |}.
Definition ets : interest := {| want := both; et := true; oneshot := false |}.
Definition once : interest := {| want := both; et := false; oneshot := true |}.
Definition out_ev : evs := {| ev_in := false; ev_out := true; ev_rdhup := false |}.
Definition in_ev : evs := {| ev_in := true; ev_out := false; ev_rdhup := false |}.
Definition modern (f : Z) : bool := false.

(** A one-shot registration for input and output reports twice: first output, then input. *)
Definition twice : list op := [Change 10 (st false true) false; Ctl Add (3, 10) once 7; Wait 8; Change 10 (st true true) true; Wait 8].
Theorem C24_oneshot_refuted : exists w n1 n2 n3 h,
  runs modern ((Wait 8, Events [((3, 10), (in_ev, 7))], n1) :: (Change 10 (st true true) true, Ok, n2) ::
               (Wait 8, Events [((3, 10), (out_ev, 7))], n3) :: h) w /\ registered h (3, 10) = Some (once, 7) /\ oneshot once = true.
Proof.
  destruct (exec modern world_new twice []) as [[w h]|] eqn:E; vm_compute in E; [|discriminate].
  pose proof (exec_runs modern twice _ _ _ _ (r_nil modern) E) as R. injection E as <- <-.
  do 5 eexists. split; [exact R|]. split; reflexivity.
Qed.
Print Assumptions C24_oneshot_refuted.

(** Two descriptors, one level and one edge triggered, waited for one at a time; then the input of the
    edge-triggered one goes and comes back, and the other is closed. *)
Definition story : list op :=
  [Change 10 (st true false) true; Change 11 (st true false) true;
   Ctl Add (3, 10) lt 30; Ctl Add (4, 11) ets 40; Ctl Add (3, 10) lt 31; Ctl Del (5, 10) lt 0;
   Wait 1; Wait 1; Wait 1; Wait 2;
   Change 11 (st false false) false; Change 11 (st true false) true; Wait 1; Wait 1;
   Change 10 {| st_active := true; st_readable := true; st_writable := false; st_closed := true; st_rdhup := false; st_other := false |} false;
   Wait 4; Wait 0].
Example C24_history : exists w h, exec modern world_new story [] = Some (w, h) /\ runs modern h w /\
  map (fun x => (snd (fst x), snd x)) (rev h) =
  [(Ok, []); (Ok, []); (Ok, [true]); (Ok, []); (Err EEXIST, []); (Err ENOENT, []);
   (Events [((3, 10), (in_ev, 30))], []); (Events [((4, 11), (in_ev, 40))], []); (Events [((3, 10), (in_ev, 30))], []);
   (Events [((3, 10), (in_ev, 30))], []);
   (Ok, []); (Ok, []); (Events [((3, 10), (in_ev, 30))], []); (Events [((4, 11), (in_ev, 40))], []);
   (Ok, [false]); (Events [], []); (Err EINVAL, [])].
Proof.
  destruct (exec modern world_new story []) as [[w h]|] eqn:E; vm_compute in E; [|discriminate].
  pose proof (exec_runs modern story _ _ _ _ (r_nil modern) E) as R. injection E as <- <-.
  do 2 eexists. split; [vm_compute; reflexivity|]. split; [exact R|]. reflexivity.
Qed.
(** Part of it meets the hypotheses of [C24_fair]: two ready descriptors, two waits for one event each. *)
Definition start : list op :=
  [Change 10 (st true false) true; Change 11 (st true false) true; Ctl Add (3, 10) lt 30; Ctl Add (4, 11) lt 40; Wait 1; Wait 1].
Example C24_fair_case : exists h2 h1 w, runs modern (h2 ++ h1) w /\
  (forall a b, h2 = a ++ b -> ready_key modern (b ++ h1) (4, 11)) /\
  (forall k', ready_key modern h1 k' -> In k' [(3, 10); (4, 11)]) /\ Z.of_nat (length [(3, 10); (4, 11)]) <= room h2 /\
  map (fun x => snd (fst x)) h2 = [Events [((4, 11), (in_ev, 40))]; Events [((3, 10), (in_ev, 30))]].
Proof.
  destruct (exec modern world_new start []) as [[w h]|] eqn:E; vm_compute in E; [|discriminate].
  pose proof (exec_runs modern start _ _ _ _ (r_nil modern) E) as R. injection E as <- <-.
  match type of R with runs _ (?x :: ?y :: ?h1) _ => exists [x; y], h1 end. eexists. split; [exact R|]. split; [|split; [|split]].
  - intros a b E. exists IN. destruct a as [|x [|y [|z a]]]; cbn in E.
    + subst b. reflexivity.
    + injection E as _ <-. reflexivity.
    + injection E as _ _ <-. reflexivity.
    + discriminate E.
  - intros k (b & D). destruct (eqb_ok (4, 11) k) as [<-|N]; [cbn; auto|]. destruct (eqb_ok (3, 10) k) as [<-|N']; [cbn; auto|].
    exfalso. unfold due in D. match type of D with context [registered ?h k] => assert (R0 : registered h k = None) end; [|rewrite R0 in D; discriminate D].
    cbn [registered]. destruct (@eqb_ok key _ (4, 11) k); [contradiction|]. destruct (@eqb_ok key _ (3, 10) k); [contradiction|].
    cbn [st_closed]. rewrite !andb_false_r. reflexivity.
  - cbn. discriminate.
  - reflexivity.
Qed.
(** Other pieces meet those of [C24_edge] and [C24_oneshot_partial]: a report, an edge or a new registration, another report. *)
Definition edges : list op := [Change 10 (st true false) true; Ctl Add (3, 10) ets 30; Wait 1; Wait 1; Change 10 (st true false) true; Wait 1].
Definition shots : list op := [Change 10 (st true false) true; Ctl Add (3, 10) once 30; Wait 1; Wait 1; Ctl Mod (3, 10) once 31; Wait 1].
Example C24_edge_case : exists y h2 x h1 w i d, runs modern (y :: h2 ++ x :: h1) w /\ reports_at x (3, 10) IN /\ reports_at y (3, 10) IN /\
  registered (h2 ++ x :: h1) (3, 10) = Some (i, d) /\ et i = true.
Proof.
  destruct (exec modern world_new edges []) as [[w h]|] eqn:E;
    vm_compute in E; [|discriminate].
  pose proof (exec_runs modern edges _ _ _ _ (r_nil modern) E) as R. injection E as <- <-.
  match type of R with runs _ (?y :: ?a :: ?b :: ?x :: ?h1) _ => exists y, [a; b], x, h1 end.
  do 3 eexists. split; [exact R|]. repeat split; reflexivity.
Qed.
Example C24_oneshot_case : exists y h2 x h1 w i d, runs modern (y :: h2 ++ x :: h1) w /\ reports_at x (3, 10) IN /\ reports_at y (3, 10) IN /\
  registered (h2 ++ x :: h1) (3, 10) = Some (i, d) /\ oneshot i = true.
Proof.
  destruct (exec modern world_new shots []) as [[w h]|] eqn:E;
    vm_compute in E; [|discriminate].
  pose proof (exec_runs modern shots _ _ _ _ (r_nil modern) E) as R. injection E as <- <-.
  match type of R with runs _ (?y :: ?a :: ?b :: ?x :: ?h1) _ => exists y, [a; b], x, h1 end.
  do 3 eexists. split; [exact R|]. repeat split; reflexivity.
Qed.
