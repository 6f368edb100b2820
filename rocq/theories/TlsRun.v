(** An executable version of the steps of TlsModel, for examples. *)
From Verif Require Import Base PoolModel TlsModel TlsSpec.

Definition is_idle (p : tpc) : bool := match p with TIdle => true | _ => false end.
Definition owns (s : tls) (i k : nat) : bool := match own s k with Some t => Nat.eqb t i | None => false end.

Definition exec (s : tls) (l : lab) : option tls :=
  match l with
  | Claim i k => match own s k with None => if Nat.eqb k 0 then None else Some (set_own (fupd k (Some i) (own s)) s) | Some _ => None end
  | Begin i k w => if owns s i k && is_idle (tpcs s i) then Some (set_tpc i (TScan k 0 w) s) else None
  | Look i =>
      match tpcs s i with
      | TScan k j w => if Nat.ltb j (size s) then if Nat.eqb (keys s (slot s k j)) k then Some (found i (slot s k j) k w s) else Some (set_tpc i (TScan k (S j) w) s) else Some (absent i k w s)
      | _ => None
      end
  | Init i v => match tpcs s i with TInit k => Some (set_touched (fupd i (occupied s) (touched s)) (set_tpc i (TInsert k v 0) s)) | _ => None end
  | Take i =>
      match tpcs s i with
      | TInsert k v j => if Nat.ltb j (size s) && Nat.eqb (keys s (slot s k j)) 0
          then Some (set_touched (fun t => slot s k j :: touched s t) (set_tpc i (TFill (slot s k j) k v) (set_keys (fupd (slot s k j) k (keys s)) s))) else None
      | _ => None
      end
  | Miss i =>
      match tpcs s i with
      | TInsert k v j => if Nat.ltb j (size s) then if Nat.eqb (keys s (slot s k j)) 0 then None else Some (set_tpc i (TInsert k v (S j)) s) else Some (set_tpc i TFull s)
      | _ => None
      end
  | Fill i => match tpcs s i with TFill q k v => Some (add_ev (EInsert k v) (set_tpc i TIdle (new_ref i q k (set_vals (fupd q (Some v) (vals s)) s)))) | _ => None end
  | Free i => match tpcs s i with TStore q k v => Some (add_ev (ERemove k (Found v)) (set_tpc i TIdle (set_vals (fupd q None (vals s)) (set_keys (fupd q 0%nat (keys s)) s)))) | _ => None end
  | ReadRef i => match held s i with (q, k) :: _ => if is_idle (tpcs s i) then Some (add_ev (ERead k (vals s q)) s) else None | [] => None end
  | DropRef i =>
      match held s i with
      | (q, k) :: _ => if is_idle (tpcs s i)
          then Some (if (refs s q =? 0)%nat then set_tpc i TUnderflow s else set_held i (remove_one (q, k) (held s i)) (set_refs (fupd q (refs s q - 1)%nat (refs s)) s)) else None
      | [] => None
      end
  | _ => None
  end.

Lemma is_idle_ok p : is_idle p = true -> p = TIdle.
Proof. destruct p; cbn; congruence. Qed.
Lemma owns_ok s i k : owns s i k = true -> own s k = Some i.
Proof. unfold owns. destruct (own s k); [|discriminate]. intros E. apply Nat.eqb_eq in E. congruence. Qed.

Lemma exec_ok s l t : exec s l = Some t -> step s l t.
Proof.
  destruct l; cbn [exec]; intros E; try discriminate.
  - destruct (own s k) eqn:O; [discriminate|]. destruct (Nat.eqb_spec k 0); [discriminate|]. injection E as <-. apply S_claim; assumption.
  - destruct (owns s i k) eqn:O; [|discriminate]. destruct (is_idle (tpcs s i)) eqn:D; [|discriminate]. injection E as <-. apply S_begin; [apply owns_ok; exact O|apply is_idle_ok; exact D].
  - destruct (tpcs s i) eqn:P; try discriminate. destruct (Nat.ltb_spec j (size s)); [destruct (Nat.eqb_spec (keys s (slot s k j)) k)|]; injection E as <-;
      [eapply S_here|eapply S_next|eapply S_nowhere]; eassumption.
  - destruct (tpcs s i) eqn:P; try discriminate. injection E as <-. apply S_init. exact P.
  - destruct (tpcs s i) eqn:P; try discriminate. destruct (Nat.ltb_spec j (size s)); [destruct (Nat.eqb_spec (keys s (slot s k j)) 0); [discriminate|]|]; injection E as <-;
      [eapply S_miss|eapply S_full]; eassumption.
  - destruct (tpcs s i) eqn:P; try discriminate. destruct (Nat.ltb_spec j (size s)); [|discriminate]. destruct (Nat.eqb_spec (keys s (slot s k j)) 0); [|discriminate]. injection E as <-. eapply S_take; eassumption.
  - destruct (tpcs s i) eqn:P; try discriminate. injection E as <-. apply S_fill. exact P.
  - destruct (tpcs s i) eqn:P; try discriminate. injection E as <-. apply S_free. exact P.
  - destruct (held s i) as [|[q k] r] eqn:R; [discriminate|]. destruct (is_idle (tpcs s i)) eqn:D; [|discriminate]. injection E as <-. apply S_read; [apply is_idle_ok; exact D|rewrite R; left; reflexivity].
  - destruct (held s i) as [|[q k] r] eqn:R; [discriminate|]. destruct (is_idle (tpcs s i)) eqn:D; [|discriminate]. injection E as <-.
    pose proof (S_drop s i q k (is_idle_ok _ D)) as X. rewrite R in X. apply X. left. reflexivity.
Qed.

Fixpoint run (p : tls -> bool) (s : tls) (ls : list lab) : option tls :=
  if p s then match ls with [] => Some s | l :: ls => match exec s l with Some t => run p t ls | None => None end end else None.

Lemma run_always p ls : forall s t, run p s ls = Some t -> always (fun s => p s = true) s ls t.
Proof.
  induction ls as [|l ls IH]; intros s t; cbn; destruct (p s) eqn:P; try discriminate.
  - intros [= <-]. constructor. exact P.
  - destruct (exec s l) as [u|] eqn:E; [|discriminate]. intros R. econstructor; [exact P|apply exec_ok; exact E|apply IH; exact R].
Qed.
Lemma always_steps P s ls t : always P s ls t -> steps s ls t.
Proof. intros A. induction A; econstructor; eassumption. Qed.
Lemma always_weaken (P Q : tls -> Prop) s ls t : (forall s, P s -> Q s) -> always P s ls t -> always Q s ls t.
Proof. intros W A. induction A; econstructor; eauto. Qed.

(** From a run to what is asked of its last state. *)
Lemma run_ex {A} (f : tls -> A) s ls x : option_map f (run (fun _ => true) s ls) = Some x -> exists t, steps s ls t /\ f t = x.
Proof.
  destruct (run _ s ls) as [t|] eqn:E; [|discriminate]. intros [= <-]. exists t. split; [|reflexivity]. exact (always_steps _ _ _ _ (run_always _ _ _ _ E)).
Qed.
Lemma run_ex_always {A} (p : tls -> bool) (P : tls -> Prop) (f : tls -> A) s ls x : (forall s, p s = true -> P s) -> option_map f (run p s ls) = Some x -> exists t, always P s ls t /\ f t = x.
Proof.
  intros W. destruct (run p s ls) as [t|] eqn:E; [|discriminate]. intros [= <-]. exists t. split; [|reflexivity]. exact (always_weaken _ _ _ _ _ W (run_always _ _ _ _ E)).
Qed.
