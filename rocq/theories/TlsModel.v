(** The table of thread-local values of the shim: src/lib/vasi-sync/src/atomic_tls_map.rs,
    as a small-step system of any number of threads.

    Operations on the atomic keys are single steps of a sequentially consistent memory.
    The requirement on the callers (documentation of the functions: a key is used by one
    thread only, until that thread has removed it) is made explicit by [own]: a thread
    claims a key that nobody owns, and releases it when it is not in the table.  A value
    that is not initialised is [None].  Reference counts do not overflow.  The hash
    function is an arbitrary function [home] from keys to slots (the hash modulo N). *)
From Verif Require Import Base PoolModel.

(** What a thread is looking a key up for. *)
Inductive purpose := PGet | PGetOrInsert | PRemove.

Inductive tpc :=
| TIdle
| TScan (k j : nat) (w : purpose)          (** idx, lines 123-129: about to load the [j]-th slot of the probe sequence *)
| TInit (k : nat)                          (** get_or_insert_with, line 195: about to call init *)
| TInsert (k : nat) (v : Z) (j : nat)      (** insert, lines 157-170: about to try the [j]-th slot *)
| TFill (q k : nat) (v : Z)                (** insert, lines 171-175: has the slot, about to write the value *)
| TStore (q k : nat) (v : option Z)        (** remove, line 223: has read the value, about to free the slot *)
| TFull                                    (** insert panicked, line 170 *)
| TStillUsed                               (** remove panicked, lines 209-213 *)
| TUnderflow.                              (** the drop of a reference panicked, line 326 *)

(** Results: no such key, or the value (that might be uninitialised). *)
Inductive res := Absent | Found (v : option Z).
(** What threads observe, in the order of completion. *)
Inductive ev :=
| EGet (k : nat) (r : res)                 (** get, and get_or_insert_with of a present key *)
| EInsert (k : nat) (v : Z)                (** get_or_insert_with of an absent key *)
| ERead (k : nat) (v : option Z)           (** deref of a reference *)
| ERemove (k : nat) (r : res)
| EForget.

Record tls := Tls {
  size : nat;                              (** N *)
  home : nat -> nat;                       (** of each key: the hash modulo N *)
  keys : nat -> nat;                       (** of each slot; 0 is None, AtomicOptionNonZeroUsize *)
  vals : nat -> option Z;
  refs : nat -> nat;                       (** refcounts *)
  tpcs : nat -> tpc;
  held : nat -> list (nat * nat);          (** references of each thread: slot and key *)
  own : nat -> option nat;                 (** the thread that uses a key *)
  evs : list ev;                           (** newest first *)
  touched : nat -> list nat }.             (** ghost: slots that were occupied when the thread began to insert, and those filled since *)

(* new_with_hasher, lines 100-107 *)
Definition tls_new (n : nat) (h : nat -> nat) : tls :=
  Tls n h (fun _ => 0%nat) (fun _ => None) (fun _ => 0%nat) (fun _ => TIdle) (fun _ => []) (fun _ => None) [] (fun _ => []).

Definition set_keys x s := Tls (size s) (home s) x (vals s) (refs s) (tpcs s) (held s) (own s) (evs s) (touched s).
Definition set_vals x s := Tls (size s) (home s) (keys s) x (refs s) (tpcs s) (held s) (own s) (evs s) (touched s).
Definition set_refs x s := Tls (size s) (home s) (keys s) (vals s) x (tpcs s) (held s) (own s) (evs s) (touched s).
Definition set_tpc i x s := Tls (size s) (home s) (keys s) (vals s) (refs s) (fupd i x (tpcs s)) (held s) (own s) (evs s) (touched s).
Definition set_held i x s := Tls (size s) (home s) (keys s) (vals s) (refs s) (tpcs s) (fupd i x (held s)) (own s) (evs s) (touched s).
Definition set_own x s := Tls (size s) (home s) (keys s) (vals s) (refs s) (tpcs s) (held s) x (evs s) (touched s).
Definition add_ev e s := Tls (size s) (home s) (keys s) (vals s) (refs s) (tpcs s) (held s) (own s) (e :: evs s) (touched s).
Definition set_touched x s := Tls (size s) (home s) (keys s) (vals s) (refs s) (tpcs s) (held s) (own s) (evs s) x.

(* indexes_from, lines 110-116: start..N, then 0..start *)
Definition slot (s : tls) (k j : nat) : nat := ((home s k + j) mod size s)%nat.

Definition occupied (s : tls) : list nat := filter (fun q => negb (keys s q =? 0)%nat) (seq 0 (size s)).

(* Ref::new, lines 301-309 *)
Definition new_ref (i q k : nat) (s : tls) : tls := set_held i ((q, k) :: held s i) (set_refs (fupd q (S (refs s q)) (refs s)) s).

(* what happens when the key is in slot [q]: get lines 137-141, get_or_insert_with lines 193-194, remove lines 208-217 *)
Definition found (i q k : nat) (w : purpose) (s : tls) : tls :=
  match w with
  | PGet | PGetOrInsert => add_ev (EGet k (Found (vals s q))) (set_tpc i TIdle (new_ref i q k s))
  | PRemove => if (refs s q =? 0)%nat then set_tpc i (TStore q k (vals s q)) s else set_tpc i TStillUsed s
  end.
(* what happens when the key is in no slot: get line 137, get_or_insert_with line 194, remove line 208 *)
Definition absent (i k : nat) (w : purpose) (s : tls) : tls :=
  match w with
  | PGet => add_ev (EGet k Absent) (set_tpc i TIdle s)
  | PGetOrInsert => set_tpc i (TInit k) s
  | PRemove => add_ev (ERemove k Absent) (set_tpc i TIdle s)
  end.

Fixpoint remove_one (x : nat * nat) (l : list (nat * nat)) : list (nat * nat) :=
  match l with
  | [] => []
  | y :: l => if Nat.eqb (fst x) (fst y) && Nat.eqb (snd x) (snd y) then l else y :: remove_one x l
  end.

Inductive lab :=
| Claim (i k : nat) | Release (i k : nat)
| Begin (i k : nat) (w : purpose)          (** a call *)
| Look (i : nat)                           (** a step of the lookup *)
| Init (i : nat) (v : Z)                   (** init returned [v], the insertion begins *)
| Miss (i : nat)                           (** a slot was taken, or the end of the probe sequence *)
| Take (i : nat)                           (** a slot was free and is taken *)
| Fill (i : nat)                           (** the value is written, get_or_insert_with returns *)
| Free (i : nat)                           (** the slot is freed, remove returns *)
| ReadRef (i : nat) | DropRef (i : nat)
| Forget (i : nat).                        (** forget_all in the child of a fork *)

Inductive step (s : tls) : lab -> tls -> Prop :=
| S_claim i k : own s k = None -> k <> 0%nat -> step s (Claim i k) (set_own (fupd k (Some i) (own s)) s)
| S_release i k : own s k = Some i -> tpcs s i = TIdle -> (forall q, (q < size s)%nat -> keys s q <> k) -> step s (Release i k) (set_own (fupd k None (own s)) s)
| S_begin i k w : own s k = Some i -> tpcs s i = TIdle -> step s (Begin i k w) (set_tpc i (TScan k 0 w) s)
(* line 127: is the key in this slot? *)
| S_here i k j w : tpcs s i = TScan k j w -> (j < size s)%nat -> keys s (slot s k j) = k -> step s (Look i) (found i (slot s k j) k w s)
| S_next i k j w : tpcs s i = TScan k j w -> (j < size s)%nat -> keys s (slot s k j) <> k -> step s (Look i) (set_tpc i (TScan k (S j) w) s)
| S_nowhere i k j w : tpcs s i = TScan k j w -> (size s <= j)%nat -> step s (Look i) (absent i k w s)
| S_init i k v : tpcs s i = TInit k -> step s (Init i v) (set_touched (fupd i (occupied s) (touched s)) (set_tpc i (TInsert k v 0) s))
(* lines 160-168: compare_exchange *)
| S_take i k v j : tpcs s i = TInsert k v j -> (j < size s)%nat -> keys s (slot s k j) = 0%nat ->
    step s (Take i) (set_touched (fun t => slot s k j :: touched s t) (set_tpc i (TFill (slot s k j) k v) (set_keys (fupd (slot s k j) k (keys s)) s)))
| S_miss i k v j : tpcs s i = TInsert k v j -> (j < size s)%nat -> keys s (slot s k j) <> 0%nat -> step s (Miss i) (set_tpc i (TInsert k v (S j)) s)
| S_full i k v j : tpcs s i = TInsert k v j -> (size s <= j)%nat -> step s (Miss i) (set_tpc i TFull s)
(* lines 171-175 *)
| S_fill i q k v : tpcs s i = TFill q k v ->
    step s (Fill i) (add_ev (EInsert k v) (set_tpc i TIdle (new_ref i q k (set_vals (fupd q (Some v) (vals s)) s))))
(* lines 214-224: the value is moved out *)
| S_free i q k v : tpcs s i = TStore q k v ->
    step s (Free i) (add_ev (ERemove k (Found v)) (set_tpc i TIdle (set_vals (fupd q None (vals s)) (set_keys (fupd q 0%nat (keys s)) s))))
(* lines 314-320 *)
| S_read i q k : tpcs s i = TIdle -> In (q, k) (held s i) -> step s (ReadRef i) (add_ev (ERead k (vals s q)) s)
(* line 326 *)
| S_drop i q k : tpcs s i = TIdle -> In (q, k) (held s i) ->
    step s (DropRef i) (if (refs s q =? 0)%nat then set_tpc i TUnderflow s
                        else set_held i (remove_one (q, k) (held s i)) (set_refs (fupd q (refs s q - 1)%nat (refs s)) s))
(* forget_all, lines 242-247, in the child of a fork, whose only thread is the caller: the other threads are gone, with
   their references, and those of the caller are forgotten *)
| S_forget i : tpcs s i = TIdle ->
    step s (Forget i) (Tls (size s) (home s) (fun q => if (q <? size s)%nat then 0%nat else keys s q) (vals s) (fun q => if (q <? size s)%nat then 0%nat else refs s q)
                           (fun _ => TIdle) (fun _ => []) (fun _ => None) (EForget :: evs s) (touched s)).

Inductive steps (s : tls) : list lab -> tls -> Prop :=
| Steps_nil : steps s [] s
| Steps_cons l t ls u : step s l t -> steps t ls u -> steps s (l :: ls) u.

(* drop, lines 270-285: the values that are dropped, or a panic *)
Definition drop_map (s : tls) : option (list (option Z)) :=
  if forallb (fun q => (refs s q =? 0)%nat) (occupied s) then Some (map (vals s) (occupied s)) else None.
