(** A concrete simulation with three hosts, and a way to compute executions of the model. *)
From Verif Require Import Base TimeModel EventModel CpuModel RunaheadModel RunaheadProofs SimModel SimSpec.

Section D.
Context {S K T : Type} (keqb : K -> K -> bool) (teqb : T -> T -> bool) (P : params S K T).
Notation gstate := (gstate S K T).
Notation label := (label K T).

(** A scheduling decision. *)
Inductive pick : Type := PkStart (h w : nat) | PkHost (h : nat) | PkFinish (h : nat) | PkRound.

Definition busyb (s : gstate) (w h : nat) : bool :=
  match g_status s h with RActive w' | RReading w' => Nat.eqb w' w | _ => false end.

Definition drive1 (n : nat) (s : gstate) (p : pick) : option (gstate * label) :=
  match g_window s with
  | None => None
  | Some (ws, we) =>
    match p with
    | PkStart h w =>
        if Nat.ltb h (p_nhosts P) && Nat.ltb w n && negb (existsb (busyb s w) (seq 0 (p_nhosts P))) then
          match g_status s h with
          | RWait => Some (mkG (g_host s) (upd (g_status s) h (RActive w)) (g_worker s) (g_ra s) (g_window s), LTau)
          | _ => None
          end
        else None
    | PkHost h =>
        match g_status s h with
        | RActive w => do (x', f) <- host_step keqb teqb P h we (g_host s h);
                       do s' <- apply_effect keqb teqb P s h w x' f; Some (s', LHost h f)
        | _ => None
        end
    | PkFinish h =>
        match g_status s h with RReading w => Some (finish_host keqb teqb s h w, LTau) | _ => None end
    | PkRound =>
        if forallb (fun h => match g_status s h with RDone => true | _ => false end) (seq 0 (p_nhosts P))
        then do s' <- end_round P s n; Some (s', LWindow (g_window s')) else None
    end
  end.

Fixpoint drive (n : nat) (s : gstate) (l : list pick) : option (gstate * list label) :=
  match l with
  | [] => Some (s, [])
  | p :: r =>
      do (s1, lb) <- drive1 n s p;
      do (s2, tr) <- drive n s1 r;
      Some (s2, lb :: tr)
  end.

Definition inside (s : gstate) : Prop := forall h, (p_nhosts P <= h)%nat -> g_status s h = RWait.

Lemma drive1_step : forall n s p s' l, inside s -> drive1 n s p = Some (s', l) ->
  step keqb teqb P n s (Some (s', l)) /\ inside s'.
Proof.
  intros n s p s' l IN H. unfold drive1 in H. destruct (g_window s) as [[ws we]|] eqn:W; [|discriminate].
  destruct p as [h w|h|h|].
  - destruct (Nat.ltb h (p_nhosts P)) eqn:L1; [|discriminate]. destruct (Nat.ltb w n) eqn:L2; [|discriminate].
    destruct (existsb (busyb s w) (seq 0 (p_nhosts P))) eqn:EB; [discriminate|]. cbn [andb negb] in H.
    destruct (g_status s h) eqn:ST; try discriminate. injection H as <- <-.
    apply Nat.ltb_lt in L1, L2.
    assert (NB : forall h', g_status s h' <> RActive w /\ g_status s h' <> RReading w).
    { intros h'. destruct (Nat.lt_ge_cases h' (p_nhosts P)) as [L|L].
      - assert (B : busyb s w h' = false).
        { destruct (busyb s w h') eqn:B; [|reflexivity]. exfalso.
          assert (existsb (busyb s w) (seq 0 (p_nhosts P)) = true); [|congruence].
          apply existsb_exists. exists h'. split; [apply in_seq; lia|assumption]. }
        unfold busyb in B. split; intros E; rewrite E, Nat.eqb_refl in B; discriminate.
      - rewrite (IN h' L). split; discriminate. }
    split.
    + rewrite <- W. eapply St_start; eauto; apply NB.
    + intros h' L. cbn. rewrite upd_other by lia. auto.
  - destruct (g_status s h) as [|w|w|] eqn:ST; try discriminate.
    pose proof (St_host keqb teqb P n s h w ws we W ST) as X.
    assert (LH : (h < p_nhosts P)%nat).
    { destruct (Nat.lt_ge_cases h (p_nhosts P)) as [L|L]; [assumption|]. rewrite (IN h L) in ST. discriminate. }
    rewrite H in X. split; [exact X|].
    destruct (host_step keqb teqb P h we (g_host s h)) as [[x' f]|]; ob_in H; [|discriminate].
    destruct (apply_effect keqb teqb P s h w x' f) as [s1|] eqn:AE; ob_in H; [|discriminate]. injection H as <- <-.
    intros h' L. unfold apply_effect in AE. destruct f;
      try (injection AE as <-; cbn; rewrite ?upd_other by lia; auto; fail).
    + destruct (cache_update (w_cache (g_worker s w)) delay) as [[c go]|]; ob_in AE; [|discriminate].
      destruct (if go then ra_update (g_ra s) delay else Some (g_ra s)); ob_in AE; [|discriminate].
      injection AE as <-. cbn. auto.
    + unfold assert_then in AE. destruct (Nat.ltb dst (p_nhosts P)); [|discriminate].
      destruct (q_push keqb teqb (h_q (upd (g_host s) h x' dst)) e); ob_in AE; [|discriminate].
      injection AE as <-. cbn. auto.
  - destruct (g_status s h) as [|w|w|] eqn:ST; try discriminate. injection H as <- <-.
    assert (LH : (h < p_nhosts P)%nat).
    { destruct (Nat.lt_ge_cases h (p_nhosts P)) as [L|L]; [assumption|]. rewrite (IN h L) in ST. discriminate. }
    split; [eapply St_finish; eauto|]. intros h' L. cbn. rewrite upd_other by lia. auto.
  - destruct (forallb _ _) eqn:FA; [|discriminate].
    assert (D : forall h, (h < p_nhosts P)%nat -> g_status s h = RDone).
    { intros h L. rewrite forallb_forall in FA. specialize (FA h ltac:(apply in_seq; lia)).
      destruct (g_status s h); try discriminate; reflexivity. }
    pose proof (St_round keqb teqb P n s ws we W D) as X. rewrite H in X. split; [exact X|].
    destruct (end_round P s n) as [s1|] eqn:ER; ob_in H; [|discriminate]. injection H as <- <-.
    unfold end_round in ER. destruct (next_window P (g_ra s) _); ob_in ER; [|discriminate]. injection ER as <-.
    intros h' L. reflexivity.
Qed.

Lemma drive_run : forall n l s0 tr0 s s' tr, run keqb teqb P n s0 tr0 (Some s) -> inside s ->
  drive n s l = Some (s', tr) -> run keqb teqb P n s0 (tr0 ++ tr) (Some s').
Proof.
  induction l as [|p l IH]; intros s0 tr0 s s' tr R IN H; cbn [drive] in H.
  - injection H as <- <-. now rewrite app_nil_r.
  - destruct (drive1 n s p) as [[s1 lb]|] eqn:D; ob_in H; [|discriminate].
    destruct (drive n s1 l) as [[s2 tr2]|] eqn:D2; ob_in H; [|discriminate]. injection H as <- <-.
    destruct (drive1_step _ _ _ _ _ IN D) as [ST IN'].
    change (lb :: tr2) with ([lb] ++ tr2). rewrite app_assoc. eapply IH; eauto. econstructor; eauto.
Qed.

Lemma drive_init : forall n priv c boot ra l s' tr, drive n (init_state P priv c boot ra) l = Some (s', tr) ->
  run keqb teqb P n (init_state P priv c boot ra) tr (Some s').
Proof.
  intros n priv c boot ra l s' tr H. apply (drive_run n l (init_state P priv c boot ra) [] (init_state P priv c boot ra) s' tr); auto.
  - constructor.
  - intros h L. reflexivity.
Qed.
End D.

(** Scripts: the private state is the rest of the script being executed. Task 0 sends a packet to each
    of hosts 1 and 2 and schedules task 1; a packet with payload [k > 0] is answered to host 0 with
    [k - 1]. *)
Definition script : Type := list (action nat nat).
Definition demo_start (h : nat) (t : Z) (d : evdata nat nat) (s : script) : script :=
  match d with
  | ELocal _ 0%nat => [ASend 1 0 true 3%nat; ASend 2 0 true 2%nat; ASchedule 7 1%nat; ACpu 4]
  | ELocal _ _ => [AClock; ARunahead]
  | EPacket _ _ (Datatypes.S k) => [ASend (if Nat.eqb h 0 then 1 else 0) 0 true k]
  | EPacket _ _ 0%nat => [ASchedule 1000000 9%nat]
  end.
Definition demo : params script nat nat :=
  mkParams _ _ _ 3 (SIM_START + 60) SIM_START
    (fun a b => if Nat.eqb a b then 1 else 10) (fun _ _ => 5) demo_start
    (fun _ s => match s with a :: _ => a | [] => ADone end)
    (fun _ s _ => match s with _ :: r => r | [] => [] end).
Definition demo_boot (h : nat) : list (Z * nat) := if Nat.eqb h 0 then [(SIM_START, 0%nat); (SIM_START + 3, 1%nat)] else [].
Definition demo_cpu (th : option Z) (h : nat) : cpu := mkCpu 1 1 th None 0 (if Nat.eqb h 0 then match th with None => 0 | Some _ => SIM_START end else 0).
Definition demo_ra (dyn : bool) : runahead := mkRa None 1 None dyn.
Definition demo_init th dyn := init_state demo (fun _ => []) (demo_cpu th) demo_boot (demo_ra dyn).
Definition ddrive := drive Nat.eqb Nat.eqb demo.

Lemma demo_config : config_ok demo.
Proof.
  constructor.
  - cbn. unfold SIM_START, TIME_LIMIT. lia.
  - intros a b _ _. cbn. destruct (Nat.eqb a b); lia.
Qed.
Lemma demo_boot_ok : forall th, boot_ok demo (demo_cpu th) demo_boot.
Proof.
  intros th. constructor.
  - intros h. cbn. lia.
  - intros h t task. unfold demo_boot. destruct (Nat.eqb h 0); intros I; [|destruct I].
    destruct I as [E|[E|[]]]; injection E as <- <-; lia.
Qed.

(** A complete schedule: with one worker the hosts run one after the other, with more they are
    interleaved step by step. *)
Section Auto.
Context {S K T : Type} (keqb : K -> K -> bool) (teqb : T -> T -> bool) (P : params S K T).
Fixpoint auto (n fuel : nat) (order : list nat) (w : nat -> nat) (s : gstate S K T) (acc : list pick) : list pick :=
  match fuel with
  | O => acc
  | Datatypes.S fuel =>
      match g_window s with
      | None => acc
      | Some _ =>
          (* first host in [order] that can do something *)
          let fix go l := match l with
            | [] => match drive1 keqb teqb P n s PkRound with Some (s', _) => Some (PkRound, s') | None => None end
            | h :: r =>
                match drive1 keqb teqb P n s (PkHost h) with Some (s', _) => Some (PkHost h, s') | None =>
                match drive1 keqb teqb P n s (PkFinish h) with Some (s', _) => Some (PkFinish h, s') | None =>
                match drive1 keqb teqb P n s (PkStart h (w h)) with Some (s', _) => Some (PkStart h (w h), s') | None => go r
                end end end
            end in
          match go order with
          | Some (p, s') => auto n fuel (match order with h :: r => if Nat.eqb n 1 then order else r ++ [h] | [] => [] end) w s' (acc ++ [p])
          | None => acc
          end
      end
  end.
End Auto.

Definition picks1 th dyn := auto Nat.eqb Nat.eqb demo 1 300 [0; 1; 2]%nat (fun _ => 0%nat) (demo_init th dyn) [].
Definition picks3 th dyn := auto Nat.eqb Nat.eqb demo 3 300 [2; 1; 0]%nat (fun h => h) (demo_init th dyn) [].

Definition result n th dyn := ddrive n (demo_init th dyn) (if Nat.eqb n 1 then picks1 th dyn else picks3 th dyn).
Definition tr_of n th dyn := match result n th dyn with Some (_, tr) => tr | None => [] end.
Definition st_of n th dyn := match result n th dyn with Some (s, _) => s | None => demo_init th dyn end.

Lemma demo_runs : forall n th dyn, (if result n th dyn then true else false) = true ->
  run Nat.eqb Nat.eqb demo n (demo_init th dyn) (tr_of n th dyn) (Some (st_of n th dyn)).
Proof.
  intros n th dyn H. unfold tr_of, st_of. destruct (result n th dyn) as [[s tr]|] eqn:E; [|discriminate].
  eapply drive_init. exact E.
Qed.
Lemma demo_run_1 : run Nat.eqb Nat.eqb demo 1 (demo_init None false) (tr_of 1 None false) (Some (st_of 1 None false)).
Proof. apply demo_runs. vm_compute. reflexivity. Qed.
Lemma demo_run_3 : run Nat.eqb Nat.eqb demo 3 (demo_init None false) (tr_of 3 None false) (Some (st_of 3 None false)).
Proof. apply demo_runs. vm_compute. reflexivity. Qed.
Lemma demo_run_cpu : run Nat.eqb Nat.eqb demo 3 (demo_init (Some 0) true) (tr_of 3 (Some 0) true) (Some (st_of 3 (Some 0) true)).
Proof. apply demo_runs. vm_compute. reflexivity. Qed.
