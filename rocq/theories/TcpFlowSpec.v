(** Two TCP connections joined by a network that keeps the order of the packets. *)
From Verif Require Import Base TcpBufModel TcpConnModel TcpConnSpec TcpNetSpec.

(** [n] and [m] count the packets that arrived at, or were lost on the way to, the first and the second
    endpoint; with [lossy = false] no packet is lost. The flag [b] is as in [history]. *)
Inductive inorder (ix iy : Z) (sx sy lossy : bool) : bool -> nat -> nat -> endp -> endp -> Prop :=
| IStart x y : started x ix sx -> started y iy sy -> inorder ix iy sx sy lossy false 0 0 x y
| ILeft b n m x y o x' : inorder ix iy sx sy lossy b n m x y -> (forall s, o <> OPush s) -> allowed x y o -> act x y o = Some x' ->
    inorder ix iy sx sy lossy (b || rude o) n m x' y
| IRight b n m x y o y' : inorder ix iy sx sy lossy b n m x y -> (forall s, o <> OPush s) -> allowed y x o -> act y x o = Some y' ->
    inorder ix iy sx sy lossy (b || rude o) n m x y'
| ILeftPush b n m x y i s x' : inorder ix iy sx sy lossy b n m x y -> nth_error (e_out y) i = Some s -> (n <= i)%nat -> (lossy = false -> i = n) ->
    act x y (OPush s) = Some x' -> inorder ix iy sx sy lossy b (S i) m x' y
| IRightPush b n m x y i s y' : inorder ix iy sx sy lossy b n m x y -> nth_error (e_out x) i = Some s -> (m <= i)%nat -> (lossy = false -> i = m) ->
    act y x (OPush s) = Some y' -> inorder ix iy sx sy lossy b n (S i) x y'.

(** The position (SYN, bytes and FIN count one each) of the first symbol of packet [i]. *)
Definition first_pos (x : endp) (i : nat) : Z := zlen (flat_map (fun s => pkt_syms (s_h s) (s_p s)) (firstn i (e_out x))).
(** The payload bytes an endpoint has sent. *)
Definition sent_bytes (x : endp) : list Z := flat_map (fun s => concat (s_p s)) (e_out x).

(** Where a packet starts to grant room (the first sequence number not yet received, or the initial
    one when the packet acknowledges nothing), and how much room it grants; windows other than the
    SYN's are in units of two bytes when both sides scale. *)
Definition ack_from (iss : Z) (s : sent) : Z := if h_ack (s_h s) then h_acknum (s_h s) else iss.
Definition window_of (scaled : bool) (s : sent) : Z := h_win (s_h s) * (if h_syn (s_h s) then 1 else if scaled then 2 else 1).

(** Running a list of commands with a network that keeps the order. *)
Fixpoint exec_in (lossy b : bool) (n m : nat) (x y : endp) (l : list (bool * cmd)) : option (bool * nat * nat * endp * endp) :=
  match l with
  | [] => Some (b, n, m, x, y)
  | (true, CPush i) :: l => do s <- nth_error (e_out y) i; check (n <=? i)%nat; check (lossy || (i =? n)%nat); do x' <- act x y (OPush s); exec_in lossy b (S i) m x' y l
  | (false, CPush i) :: l => do s <- nth_error (e_out x) i; check (m <=? i)%nat; check (lossy || (i =? m)%nat); do y' <- act y x (OPush s); exec_in lossy b n (S i) x y' l
  | (true, c) :: l => do o <- op_of y c; check (allowedb x y o); do x' <- act x y o; exec_in lossy (b || rude o) n m x' y l
  | (false, c) :: l => do o <- op_of x c; check (allowedb y x o); do y' <- act y x o; exec_in lossy (b || rude o) n m x y' l
  end.
Definition run_in (ix iy : Z) (sx sy lossy : bool) (l : list (bool * cmd)) : option (bool * nat * nat * endp * endp) :=
  do x <- start_of 1 2 ix sx; do y <- start_of 2 1 iy sy; exec_in lossy false 0 0 x y l.
