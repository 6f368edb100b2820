(** Basic facts about the model of unix sockets, and the invariant that relates a world, the
    callbacks still queued and the specification's state. *)
From Verif Require Import Base FMap UnixModel UnixSpec.

(* ------------------------------------------------------------------ lookups *)
Lemma sock_upd w x s z : sock (upd w x s) z = if z =? x then Some s else sock w z.
Proof. unfold sock, upd; cbn [w_socks]. rewrite get_put. reflexivity. Qed.
Lemma sock_put w x s z n k : sock (mkW (put x s (w_socks w)) n k) z = if z =? x then Some s else sock w z.
Proof. unfold sock; cbn [w_socks]. rewrite get_put. reflexivity. Qed.
Lemma names_upd w x s : w_names (upd w x s) = w_names w. Proof. reflexivity. Qed.
Lemma next_upd w x s : w_next (upd w x s) = w_next w. Proof. reflexivity. Qed.
Lemma eqb_neq x y : x <> y -> (x =? y) = false. Proof. apply Z.eqb_neq. Qed.

(* ------------------------------------------------------------------ abstraction *)
Definition payload (i : item) : list Z := match i with IByte b => [b] | IMsg m => m end.
Definition bytes (l : list item) : Z := zsum (map (fun i => blen (payload i)) l).
Definition bound_of (p : proto) : option (list Z) :=
  match p with
  | PInitial b | PConnected b _ _ | PDgram b _ _ _ => b
  | PListening b _ _ => Some b
  | PConnClosed | PDgramClosed => None
  end.
Definition role_of (p : proto) : role :=
  match p with
  | PInitial _ => KNew
  | PListening _ q lim => KListen q lim
  | PConnected _ pa y => KConn y pa
  | PDgram _ pa peer _ => KGram (option_map (fun y => (y, pa)) peer)
  | PConnClosed | PDgramClosed => KGone
  end.
Definition inbox (p : proto) (l : list item) : list (Z * option (list Z) * list Z) :=
  match p with
  | PConnected _ _ y => map (fun i => (y, None, payload i)) l
  | PDgram _ _ _ r => map (fun e => (fst (fst e), payload (snd e))) (combine r l)
  | _ => []
  end.
Definition abs (s : usock) : ksock :=
  mkK (us_type s) (us_nonblock s) (us_fd s) (bound_of (us_proto s)) (role_of (us_proto s))
      (inbox (us_proto s) (ub_items (us_buf s))).

(* ------------------------------------------------------------------ callbacks *)
Definition is_open (s : usock) : bool := match us_proto s with PConnClosed | PDgramClosed => false | _ => true end.
(** The socket whose bits a callback will recompute. *)
Definition refreshes (c : cb) : option Z :=
  match c with
  | CBuf LSend x ch _ => if bs_nr ch then Some x else None
  | CBuf LRecv x ch g => if bs_r ch || bs_nw ch || g then Some x else None
  | CBuf LDgram x ch g => if bs_r ch || g then Some x else None
  | CRefresh x => Some x
  | CInform x _ => Some x
  | CFile _ _ _ _ => None
  end.
Definition due (Q : list cb) (x : Z) : Prop := exists c, In c Q /\ refreshes c = Some x.
(** Bytes that were read and whose sender has not been told. *)
Definition informs (Q : list cb) (x : Z) : Z :=
  zsum (map (fun c => match c with CInform z n => if z =? x then n else 0 | _ => 0 end) Q).
Definition closes (c : cb) : list Z :=
  match c with CFile x o n _ => if f_closed n && negb (f_closed o) then [x] else [] | _ => [] end.
Definition closers (Q : list cb) : list Z := flat_map closes Q.

(* ------------------------------------------------------------------ the invariant *)
Definition cbits (s p : usock) : ubits :=
  mkBits true (has_data (us_buf s) || (ub_writers (us_buf s) =? 0))
         ((us_sent s <? send_limit) || (ub_readers (us_buf p) =? 0)) false false.
Definition gbits (s : usock) : ubits :=
  mkBits true (has_data (us_buf s)) (us_sent s <? send_limit) false false.
Definition lbits (q : list Z) (lim : Z) : ubits :=
  mkBits true (negb (Nat.eqb (length q) 0)) false false (negb (queue_full q lim)).
Definition items_ok (t : utype) (l : list item) : Prop :=
  Forall (fun i => match i with IByte _ => t = UStream | IMsg _ => t <> UStream end) l.
Definition entry_ok (e : Z * option (list Z) * Z) (i : item) : Prop := snd e = blen (payload i).

(** [x]/[s] is connected to [y]/[p]. *)
Definition link_ok (Q : list cb) (x : Z) (s : usock) (y : Z) (p : usock) : Prop :=
  x <> y /\ us_type p = us_type s /\ ub_writers (us_buf p) = 1 /\
  match us_proto p with
  | PConnected _ _ x' =>
      x' = x /\ ub_writers (us_buf s) = 1 /\
      (ub_listeners (us_buf s) = [(LRecv, x); (LSend, y)] \/ ub_listeners (us_buf s) = [(LSend, y); (LRecv, x)]) /\
      us_sent s = bytes (ub_items (us_buf p)) + informs Q x
  | PConnClosed =>
      ub_writers (us_buf s) = 0 /\ ub_listeners (us_buf s) = [(LRecv, x)] /\
      ub_listeners (us_buf p) = [(LSend, x)] /\ informs Q x <= us_sent s
  | _ => False
  end /\
  (us_bits s = cbits s p \/ due Q x).
Definition from_r (x : Z) (r : list (Z * option (list Z) * Z)) : Z :=
  zsum (map (fun e => if fst (fst e) =? x then snd e else 0) r).
(** Bytes in the buffers of datagram sockets that [x] sent. *)
Definition gsum (w : world) (x : Z) : Z :=
  zsum (map (fun i => match sock w (Z.of_nat i) with
                      | Some s => match us_proto s with PDgram _ _ _ r => from_r x r | _ => 0 end
                      | None => 0
                      end) (seq 0 (Z.to_nat (w_next w)))).
Definition is_gram (w : world) (x : Z) : Prop := exists s, sock w x = Some s /\ us_type s = UDgram.
(** A connection that waits to be accepted. *)
Definition child_ok (w : world) (c : Z) : Prop :=
  exists s, sock w c = Some s /\ us_fd s = false /\ match us_proto s with PConnected _ _ _ => True | _ => False end.

Definition sock_ok (w : world) (Q : list cb) (x : Z) (s : usock) : Prop :=
  match us_proto s with
  | PInitial b =>
      us_type s <> UDgram /\ us_buf s = buf_new /\ us_sent s = 0 /\ (us_bits s = active \/ due Q x)
  | PListening b q lim =>
      us_type s <> UDgram /\ us_buf s = buf_new /\ us_sent s = 0 /\ (us_bits s = lbits q lim \/ due Q x) /\
      NoDup q /\ Forall (child_ok w) q
  | PConnected b pa y =>
      us_type s <> UDgram /\ ub_readers (us_buf s) = 1 /\ items_ok (us_type s) (ub_items (us_buf s)) /\
      0 <= us_sent s <= send_limit /\ exists p, sock w y = Some p /\ link_ok Q x s y p
  | PConnClosed => us_type s <> UDgram /\ ub_readers (us_buf s) = 0 /\ us_bits s = mkBits false false false true false
  | PDgram b pa peer r =>
      us_type s = UDgram /\ ub_readers (us_buf s) = 1 /\ ub_writers (us_buf s) = 0 /\
      ub_listeners (us_buf s) = [(LDgram, x)] /\ items_ok UDgram (ub_items (us_buf s)) /\
      Forall2 entry_ok r (ub_items (us_buf s)) /\ 0 <= us_sent s <= send_limit /\
      us_sent s = gsum w x + informs Q x /\
      (forall y, peer = Some y -> is_gram w y) /\ Forall (fun e => is_gram w (fst (fst e))) r /\
      (us_bits s = gbits s \/ (us_bits s = active /\ ub_items (us_buf s) = [] /\ us_sent s = 0) \/ due Q x)
  | PDgramClosed =>
      us_type s = UDgram /\ ub_readers (us_buf s) = 0 /\ us_bits s = mkBits false false false true false
  end.
Definition base_ok (w : world) (x : Z) (s : usock) : Prop :=
  0 <= x < w_next w /\ ub_state (us_buf s) = bst_of (us_buf s) /\
  (us_fd s = true -> is_open s = true) /\ (is_open s = true -> f_closed (us_bits s) = false) /\
  (forall n, us_claim s = Some n -> is_open s = true -> bound_of (us_proto s) = Some (0 :: n)).
(** Callbacks that can run. *)
Definition cb_ok (w : world) (c : cb) : Prop :=
  match c with
  | CBuf k x ch g =>
      exists s, sock w x = Some s /\
      (g = true -> k <> LSend -> match us_proto s with PConnected _ _ _ | PDgram _ _ _ _ => True | _ => False end)
  | CRefresh x => exists s, sock w x = Some s
  | CInform x n =>
      0 <= n /\ exists s, sock w x = Some s /\ match us_proto s with PInitial _ | PListening _ _ _ => False | _ => True end
  | CFile x o n _ => exists s, sock w x = Some s /\ (closes c <> [] -> is_open s = false)
  end.
Definition names_ok (w : world) (Q : list cb) : Prop :=
  (forall t n x, lookup w t n = Some x -> exists s, sock w x = Some s /\ us_type s = t /\ us_claim s = Some n /\
                                                  (is_open s = true \/ In x (closers Q))) /\
  (forall x s n, sock w x = Some s -> us_claim s = Some n -> is_open s = true \/ In x (closers Q) ->
                 lookup w (us_type s) n = Some x).
Definition queues_apart (w : world) : Prop :=
  forall x s b q lim y s' b' q' lim' c, sock w x = Some s -> us_proto s = PListening b q lim ->
    sock w y = Some s' -> us_proto s' = PListening b' q' lim' -> In c q -> In c q' -> x = y.

Record Inv (w : world) (Q : list cb) : Prop := mkInv
  { i_base : forall x s, sock w x = Some s -> base_ok w x s;
    i_next : 0 <= w_next w;
    i_all : forall x, 0 <= x < w_next w -> exists s, sock w x = Some s;
    i_sock : forall x s, sock w x = Some s -> sock_ok w Q x s;
    i_cbs : Forall (cb_ok w) Q;
    i_names : names_ok w Q;
    i_closers : NoDup (closers Q);
    i_apart : queues_apart w }.

(** The specification's state that a world stands for. *)
Definition sim (w : world) (S : kstate) : Prop :=
  (forall z, ks S z = option_map abs (sock w z)) /\ ks_next S = w_next w /\
  (forall t n x, ks_names S t n = Some x <->
                 lookup w t n = Some x /\ exists s, sock w x = Some s /\ is_open s = true).

(* ------------------------------------------------------------------ sums *)
Lemma zsum_app a b : zsum (a ++ b) = zsum a + zsum b.
Proof. unfold zsum. induction a as [|x a IH]; cbn [app fold_right]; lia. Qed.
Lemma zsum_nonneg l : Forall (fun z => 0 <= z) l -> 0 <= zsum l.
Proof. induction 1 as [|x l H _ IH]; cbn [zsum fold_right]; [lia|]. fold (zsum l). lia. Qed.
Lemma zsum_ext {A} (f g : A -> Z) l : (forall a, In a l -> f a = g a) -> zsum (map f l) = zsum (map g l).
Proof.
  induction l as [|a l IH]; intro H; [reflexivity|]. cbn [map zsum fold_right].
  fold (zsum (map f l)) (zsum (map g l)). rewrite IH, (H a) by (intros; try apply H; cbn; auto). reflexivity.
Qed.
Lemma zsum_zero {A} (f : A -> Z) l : (forall a, In a l -> f a = 0) -> zsum (map f l) = 0.
Proof. intro H. rewrite (zsum_ext f (fun _ => 0)) by exact H. induction l; cbn; auto. apply IHl. intros; apply H; cbn; auto. Qed.
(** A sum over 0..n-1 where one term changes. *)
Lemma zsum_point (f g : Z -> Z) n x : 0 <= x < Z.of_nat n -> (forall z, z <> x -> f z = g z) ->
  zsum (map (fun i => f (Z.of_nat i)) (seq 0 n)) = zsum (map (fun i => g (Z.of_nat i)) (seq 0 n)) + (f x - g x).
Proof.
  intros X E. induction n as [|n IH]; [lia|].
  rewrite seq_S, !map_app, !zsum_app. cbn [map zsum fold_right plus].
  destruct (Z.eq_dec x (Z.of_nat n)) as [->|N].
  - rewrite (zsum_ext (fun i => f (Z.of_nat i)) (fun i => g (Z.of_nat i))); [lia|].
    intros i Hi. apply in_seq in Hi. apply E. lia.
  - rewrite IH by lia. rewrite (E (Z.of_nat n)) by auto. lia.
Qed.
Lemma zsum_single (f : Z -> Z) n x : 0 <= x < Z.of_nat n -> (forall z, z <> x -> f z = 0) ->
  zsum (map (fun i => f (Z.of_nat i)) (seq 0 n)) = f x.
Proof.
  intros X E. rewrite (zsum_point f (fun _ => 0) n x X E). rewrite zsum_zero by auto. lia.
Qed.

Lemma blen_nonneg b : 0 <= blen b. Proof. unfold blen. lia. Qed.
Lemma blen_app a b : blen (a ++ b) = blen a + blen b. Proof. unfold blen. rewrite app_length. lia. Qed.
Lemma bytes_app a b : bytes (a ++ b) = bytes a + bytes b. Proof. unfold bytes. rewrite map_app. apply zsum_app. Qed.
Lemma bytes_nonneg l : 0 <= bytes l.
Proof. apply zsum_nonneg. apply Forall_map, Forall_forall. intros; apply blen_nonneg. Qed.
Lemma bytes_bytes d : bytes (map IByte d) = blen d.
Proof.
  unfold bytes, blen, zsum. rewrite map_map. induction d as [|a d IH]; [reflexivity|].
  cbn [map fold_right length payload] in *. lia.
Qed.
Lemma informs_app Q Q' x : informs (Q ++ Q') x = informs Q x + informs Q' x.
Proof. unfold informs. rewrite map_app. apply zsum_app. Qed.
Lemma informs_nonneg w Q x : Forall (cb_ok w) Q -> 0 <= informs Q x.
Proof.
  intro F. apply zsum_nonneg. apply Forall_map. eapply Forall_impl; [|exact F]. intros [] H; try lia.
  cbn in H. destruct (x0 =? x); lia.
Qed.
Lemma due_app Q Q' x : due (Q ++ Q') x <-> due Q x \/ due Q' x.
Proof.
  unfold due. split.
  - intros (c & I & E). apply in_app_or in I as [I|I]; [left|right]; eauto.
  - intros [(c & I & E)|(c & I & E)]; exists c; split; auto; apply in_or_app; auto.
Qed.
Lemma due_cons c Q x : due (c :: Q) x <-> refreshes c = Some x \/ due Q x.
Proof.
  unfold due. split.
  - intros (d & [<- |I] & E); [left|right]; eauto.
  - intros [E|(d & I & E)]; [exists c|exists d]; split; cbn; auto.
Qed.
Lemma closers_app Q Q' : closers (Q ++ Q') = closers Q ++ closers Q'.
Proof. apply flat_map_app. Qed.

Lemma gsum_ext w w' x : w_next w' = w_next w ->
  (forall z, option_map us_proto (sock w' z) = option_map us_proto (sock w z)) -> gsum w' x = gsum w x.
Proof.
  intros N E. unfold gsum. rewrite N. apply zsum_ext. intros i _. specialize (E (Z.of_nat i)).
  destruct (sock w' (Z.of_nat i)), (sock w (Z.of_nat i)); cbn in E; try discriminate E; [|reflexivity].
  injection E as ->. reflexivity.
Qed.
Definition gpart (x : Z) (s : option usock) : Z :=
  match s with Some s => match us_proto s with PDgram _ _ _ r => from_r x r | _ => 0 end | None => 0 end.
Lemma gsum_point w w' x y : w_next w' = w_next w -> 0 <= y < w_next w ->
  (forall z, z <> y -> gpart x (sock w' z) = gpart x (sock w z)) ->
  gsum w' x = gsum w x + (gpart x (sock w' y) - gpart x (sock w y)).
Proof.
  intros N Y E. unfold gsum. rewrite N.
  exact (zsum_point (fun z => gpart x (sock w' z)) (fun z => gpart x (sock w z)) (Z.to_nat (w_next w)) y ltac:(lia) E).
Qed.
(* ------------------------------------------------------------------ what other sockets see *)
Inductive cview := VConn (y : Z) | VClosed | VOther.
Definition view (p : proto) : cview :=
  match p with PConnected _ _ y => VConn y | PConnClosed => VClosed | _ => VOther end.
Definition same_end (p p' : usock) : Prop :=
  us_type p' = us_type p /\ ub_writers (us_buf p') = ub_writers (us_buf p) /\
  ub_readers (us_buf p') = ub_readers (us_buf p) /\ ub_listeners (us_buf p') = ub_listeners (us_buf p) /\
  bytes (ub_items (us_buf p')) = bytes (ub_items (us_buf p)) /\ view (us_proto p') = view (us_proto p).
Lemma same_end_refl p : same_end p p. Proof. repeat split. Qed.
Lemma link_frame Q Q' x s y p p' : link_ok Q x s y p -> same_end p p' -> informs Q' x = informs Q x ->
  (due Q x -> due Q' x) -> link_ok Q' x s y p'.
Proof.
  intros (N & T & W & M & B) (T' & W' & R' & L' & Y' & V') I D. unfold link_ok.
  rewrite T', W', L', Y', I. repeat split; auto.
  - destruct (us_proto p), (us_proto p'); cbn in V'; try discriminate V'; try contradiction; auto.
    injection V' as ->. exact M.
  - destruct B as [B|B]; [left|right; auto]. unfold cbits in *. rewrite R'. exact B.
Qed.
Lemma sock_frame w w' Q Q' z s : sock_ok w Q z s ->
  (forall k, is_gram w k -> is_gram w' k) ->
  (forall b q lim, us_proto s = PListening b q lim -> Forall (child_ok w) q -> Forall (child_ok w') q) ->
  (forall b pa y p, us_proto s = PConnected b pa y -> sock w y = Some p -> link_ok Q z s y p ->
     exists p', sock w' y = Some p' /\ link_ok Q' z s y p') ->
  (us_type s = UDgram -> is_open s = true -> gsum w' z + informs Q' z = gsum w z + informs Q z) ->
  (is_open s = true -> due Q z -> due Q' z) -> sock_ok w' Q' z s.
Proof.
  unfold sock_ok, is_open. intros H G C L A D. destruct (us_proto s) as [b|b q lim|b pa y| |b pa peer r|] eqn:E.
  - intuition.
  - destruct H as (T & B & S & Bi & ND & F). repeat split; auto. intuition. eapply C; eauto.
  - destruct H as (T & R & I & S & p & P & K). repeat split; auto; try lia. eapply L; eauto.
  - auto.
  - destruct H as (T & R & W & Li & I & F & S & SE & PE & FR & B).
    assert (SE' : us_sent s = gsum w' z + informs Q' z) by (rewrite A by auto; exact SE).
    repeat split; auto; try lia.
    + eapply Forall_impl; [|exact FR]. intros; apply G; auto.
    + intuition.
  - auto.
Qed.
