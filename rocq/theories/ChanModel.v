(** The shared-memory channel, src/lib/vasi-sync/src/scchannel.rs, at the granularity of atomic
    operations, accesses to the message cell and futex calls. Memory is sequentially consistent;
    [fetch_update] is one atomic step, in which a failing assertion changes nothing. Dropping the
    channel is not modelled. *)
From Verif Require Import Base.

(** ChannelContentsState, lines 8-15 *)
Inductive contents := Empty | Writing | Ready | Reading.
Definition contents_eqb (a b : contents) : bool :=
  match a, b with
  | Empty, Empty | Writing, Writing | Ready, Ready | Reading, Reading => true
  | _, _ => false
  end.

(** ChannelState, lines 37-43 *)
Record cstate := CState { writer_closed : bool; has_sleeper : bool; contents_state : contents }.

(** From<ChannelState> for u32, lines 58-68 (the three parts are disjoint bits) *)
Definition contents_u8 (c : contents) : Z :=
  match c with Empty => 0 | Writing => 1 | Ready => 2 | Reading => 3 end.
Definition to_u32 (s : cstate) : Z :=
  Z.lor (Z.lor (if writer_closed s then 512 else 0) (if has_sleeper s then 1024 else 0))
        (contents_u8 (contents_state s)).
(** From<u32> for ChannelState, lines 45-56 and 17-31; None: panic *)
Definition of_u8 (v : Z) : option contents :=
  if v =? 0 then Some Empty else if v =? 1 then Some Writing else if v =? 2 then Some Ready
  else if v =? 3 then Some Reading else None.
Definition of_u32 (v : Z) : option cstate :=
  do c <- of_u8 (Z.land v 255);
  Some (CState (negb (Z.land v 512 =? 0)) (negb (Z.land v 1024 =? 0)) c).

Section Chan.
Context {M : Type}.

(** Where the sender is in send, lines 182-210. *)
Inductive spc :=
| SIdle
| SStart (v : M)          (* before Empty -> Writing, line 183 *)
| SWrite (v : M)          (* before the write of the message, line 194 *)
| SPublish                (* before Writing -> Ready, line 195 *)
| SWake                   (* before futex_wake, line 208 *)
| SPanic.

(** Where the receiver is in receive, lines 219-294. *)
Inductive rpc :=
| RIdle
| RLoad                   (* before the load, line 220 *)
| RSetBit (s : cstate)    (* before the compare-exchange from [s], line 235 *)
| RFutex (e : cstate)     (* before futex_wait with [e], line 249 *)
| RAsleep                 (* sleeping *)
| RClear                  (* before clearing the sleeper bit, line 252 *)
| RTake                   (* before Ready -> Reading, line 270 *)
| RRead                   (* before the read of the message, line 281 *)
| RFinish (v : M)         (* before Reading -> Empty, line 282 *)
| RPanic.

(** SelfContainedChannel, lines 166-169, with the parties: one sender, one receiver and any number
    of threads that call close_writer, of which [closing] are about to call futex_wake. Ghosts: the
    messages for which send was called, and the results of receive (None: WriterIsClosed). *)
Record chan := Chan {
  state : cstate; message : option M; sender : spc; receiver : rpc; closing : nat;
  sends : list M; results : list (option M) }.

(** new, lines 172-177 *)
Definition chan_new : chan := Chan (CState false false Empty) None SIdle RIdle 0 [] [].

Definition set_contents (c : contents) (s : cstate) : cstate :=
  CState (writer_closed s) (has_sleeper s) c.
Definition set_sleeper (b : bool) (s : cstate) : cstate := CState (writer_closed s) b (contents_state s).

(** futex_wake_one: the receiver is the only one that sleeps on this word *)
Definition wake (r : rpc) : rpc := match r with RAsleep => RClear | _ => r end.

(** The loop of receive up to the next atomic operation, lines 221-235, for the view [s]: the new
    place and what is returned, if anything. *)
Definition evaluate (s : cstate) : rpc * list (option M) :=
  if contents_eqb (contents_state s) Ready then (RTake, [])
  else if writer_closed s then (RIdle, [None])
  else if negb (contents_eqb (contents_state s) Empty || contents_eqb (contents_state s) Writing)
  then (RPanic, [])
  else if has_sleeper s then (RPanic, [])
  else (RSetBit s, []).

Definition set_s (c : chan) (st : cstate) (m : option M) (p : spc) : chan :=
  Chan st m p (receiver c) (closing c) (sends c) (results c).
Definition set_r (c : chan) (st : cstate) (p : rpc) (res : list (option M)) : chan :=
  Chan st (message c) (sender c) p (closing c) (sends c) (results c ++ res).

(** The next step of the sender *)
Definition sender_step (c : chan) : chan :=
  match sender c with
  | SStart v =>
      if contents_eqb (contents_state (state c)) Empty
      then set_s c (set_contents Writing (state c)) (message c) (SWrite v)
      else set_s c (state c) (message c) SPanic
  | SWrite v => set_s c (state c) (Some v) SPublish
  | SPublish =>
      if contents_eqb (contents_state (state c)) Writing
      then set_s c (set_contents Ready (state c)) (message c)
                 (if has_sleeper (state c) then SWake else SIdle)
      else set_s c (state c) (message c) SPanic
  | SWake =>
      Chan (state c) (message c) SIdle (wake (receiver c)) (closing c) (sends c) (results c)
  | _ => c
  end.

(** The next step of the receiver; comparing two states is comparing their words (C30_word). *)
Definition receiver_step (c : chan) : chan :=
  let st := state c in
  match receiver c with
  | RLoad => let '(p, r) := evaluate st in set_r c st p r
  | RSetBit s =>
      if to_u32 st =? to_u32 s then set_r c (set_sleeper true s) (RFutex (set_sleeper true s)) []
      else let '(p, r) := evaluate st in set_r c st p r
  | RFutex e => set_r c st (if to_u32 st =? to_u32 e then RAsleep else RClear) []
  | RClear =>
      let st' := set_sleeper false st in
      let '(p, r) := evaluate st' in set_r c st' p r
  | RTake =>
      if contents_eqb (contents_state st) Ready then set_r c (set_contents Reading st) RRead []
      else set_r c st RPanic []
  | RRead =>
      match message c with Some v => set_r c st (RFinish v) [] | None => set_r c st RPanic [] end
  | RFinish v =>
      if contents_eqb (contents_state st) Reading
      then set_r c (set_contents Empty st) RIdle [Some v]
      else set_r c st RPanic []
  | _ => c
  end.

(** What can happen next; an action that is not possible leaves the state unchanged. *)
Inductive kact :=
| KSend (v : M)     (* a call of send *)
| KSender           (* the next step of the sender *)
| KRecv             (* a call of receive *)
| KReceiver         (* the next step of the receiver *)
| KIntr             (* futex_wait returns (EINTR or spuriously) *)
| KClose            (* close_writer, the update, lines 303-313 *)
| KCloseWake.       (* close_writer, the futex_wake, line 315 *)

Definition kstep (a : kact) (c : chan) : chan :=
  match a with
  | KSend v =>
      match sender c with
      | SIdle => Chan (state c) (message c) (SStart v) (receiver c) (closing c) (sends c ++ [v]) (results c)
      | _ => c
      end
  | KSender => sender_step c
  | KRecv =>
      match receiver c with RIdle => set_r c (state c) RLoad [] | _ => c end
  | KReceiver => receiver_step c
  | KIntr => match receiver c with RAsleep => set_r c (state c) RClear [] | _ => c end
  | KClose =>
      let st := state c in
      Chan (CState true (has_sleeper st) (contents_state st)) (message c) (sender c) (receiver c)
           (closing c + if has_sleeper st then 1 else 0) (sends c) (results c)
  | KCloseWake =>
      match closing c with
      | O => c
      | S n => Chan (state c) (message c) (sender c) (wake (receiver c)) n (sends c) (results c)
      end
  end.

Fixpoint krun (c : chan) (acts : list kact) : chan :=
  match acts with [] => c | a :: r => krun (kstep a c) r end.

End Chan.
Arguments spc : clear implicits.
Arguments rpc : clear implicits.
Arguments chan : clear implicits.
Arguments kact : clear implicits.
