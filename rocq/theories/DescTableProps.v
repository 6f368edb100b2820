(** C21: descriptor numbers. *)
From Verif Require Import Base FMap BTree DescTableModel DescTableSpec DescTableProofs.

(** In every history no operation panics; every number handed out was unused, is at least the
    requested minimum and is within range; allocation fails only when every number from the minimum
    up is in use; replacing and closing return what the number named; and only the named numbers
    change (the contents are those of the plain map). *)
Theorem C21_table : forall (D : Type) (l : list (dop D)), Forall in_range l -> exists t xs,
  drun table_new l = Some (t, xs) /\ all_steps right_result nothing l xs /\
  forall n, get n (descriptors t) = after nothing l xs n.
Proof. exact @table_main. Qed.
Print Assumptions C21_table.

(** As long as the program keeps to compact numbers and closes only what is open, allocation returns
    the lowest unused number at or above the minimum. Missing from the full claim: histories that
    close an unused number, or that close a number placed above all others. *)
Theorem C21_lowest_partial : forall (D : Type) (l : list (dop D)) t xs, Forall in_range l ->
  drun table_new l = Some (t, xs) -> all_steps compact_op nothing l xs -> all_steps lowest_result nothing l xs.
Proof. exact @lowest_main. Qed.
Print Assumptions C21_lowest_partial.

(** In every history, a number that is not the lowest unused one was closed before. *)
Theorem C21_reuse : forall (D : Type) (l : list (dop D)) d m t xs n, Forall in_range l -> number m ->
  drun table_new (l ++ [Open d m]) = Some (t, xs ++ [Opened n]) ->
  lowest (after nothing l xs) m n \/ ever_closed l n.
Proof. exact @reuse_main. Qed.
Print Assumptions C21_reuse.

(** Closing a number that was never open makes it the next number handed out. *)
Theorem C21_close_unused_refuted : exists (l : list (dop nat)) t xs,
  Forall in_range l /\ drun table_new l = Some (t, xs) /\ ~ all_steps lowest_result nothing l xs.
Proof.
  exists [Open 0%nat 0; Close 500; Open 1%nat 0].
  eexists. eexists. split; [|split].
  - repeat constructor; cbn; lia.
  - vm_compute. reflexivity.
  - cbn. intros (_ & _ & H & _). specialize (H 1). apply H; [lia|]. reflexivity.
Qed.
Print Assumptions C21_close_unused_refuted.

(** So does closing a number that dup2 placed high, or that F_DUPFD placed high. *)
Theorem C21_dup_high_refuted : exists (l : list (dop nat)) t xs,
  Forall in_range l /\ drun table_new l = Some (t, xs) /\
  all_steps (fun T o x => match o with Close k => used T k | _ => True end) nothing l xs /\
  ~ all_steps lowest_result nothing l xs.
Proof.
  exists [Open 0%nat 0; DupTo 0%nat 100; Close 100; Open 1%nat 0].
  eexists. eexists. split; [|split; [|split]].
  - repeat constructor; cbn; lia.
  - vm_compute. reflexivity.
  - cbn. unfold used. cbn. repeat split; discriminate.
  - cbn. intros (_ & _ & _ & H & _). specialize (H 1). apply H; [lia|]. reflexivity.
Qed.
Print Assumptions C21_dup_high_refuted.
Theorem C21_dup_min_refuted : exists (l : list (dop nat)) t xs,
  Forall in_range l /\ drun table_new l = Some (t, xs) /\
  all_steps (fun T o x => match o with Close k => used T k | DupTo _ _ => False | _ => True end) nothing l xs /\
  ~ all_steps lowest_result nothing l xs.
Proof.
  exists [Open 0%nat 0; Open 0%nat 100; Close 100; Open 1%nat 0].
  eexists. eexists. split; [|split; [|split]].
  - repeat constructor; cbn; lia.
  - vm_compute. reflexivity.
  - cbn. unfold used. cbn. repeat split; discriminate.
  - cbn. intros (_ & _ & _ & H & _). specialize (H 1). apply H; [lia|]. reflexivity.
Qed.
Print Assumptions C21_dup_min_refuted.

(** A compact history with reuse, replacement and a range-close. *)
Example C21_history :
  exists t, drun table_new [Open 0 0; Open 1 0; Open 2 0; Open 3 2; Close 1; DupTo 7 2; Open 4 0; CloseRange 1 2; Open 5 1; Open 6 0; Open 8 0]%Z =
    Some (t, [Opened 0; Opened 1; Opened 2; Opened 3; Closed (Some 1); Replaced (Some 2); Opened 1; Removed [4; 7]; Opened 1; Opened 2; Opened 4]) /\
  all_steps compact_op nothing [Open 0 0; Open 1 0; Open 2 0; Open 3 2; Close 1; DupTo 7 2; Open 4 0; CloseRange 1 2; Open 5 1; Open 6 0; Open 8 0]%Z
    [Opened 0; Opened 1; Opened 2; Opened 3; Closed (Some 1); Replaced (Some 2); Opened 1; Removed [4; 7]; Opened 1; Opened 2; Opened 4].
Proof.
  eexists. split; [vm_compute; reflexivity|]. cbn. unfold used. cbn.
  repeat split; first [now left|discriminate|right; exists 1; split; [discriminate|lia]|right; exists 0; split; [discriminate|lia]|exists 3; split; [discriminate|lia]|idtac].
Qed.
