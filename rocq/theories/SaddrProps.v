(** C68: socket addresses keep their meaning through the memory of applications. *)
From Verif Require Import Base SaddrModel SaddrProofs.

(** An address written to a buffer that is large enough, and read back with the
    length written, is the same address. *)
Theorem C68_memory : forall s bs buffer, from_bytes bs = Some s -> len bs <= len buffer ->
  let '(mem, n) := write_addr s buffer in n = len bs /\ read_addr mem n = Some s.
Proof. exact memory_law. Qed.
Print Assumptions C68_memory.

(** In any buffer: the length is that of the whole address, what fits is written,
    and no other byte of memory. *)
Theorem C68_cut : forall s bs buffer, from_bytes bs = Some s ->
  let '(mem, n) := write_addr s buffer in
  n = len bs /\ length mem = length buffer
  /\ firstn (length bs) mem = firstn (length buffer) bs
  /\ skipn (length bs) mem = skipn (length bs) buffer.
Proof. exact cut_law. Qed.
Print Assumptions C68_cut.

(** Addresses of up to 128 bytes are taken as they are, longer ones refused. *)
Theorem C68_bytes : forall bs,
  (len bs <= 128 -> exists s, from_bytes bs = Some s /\ as_slice s = bs)
  /\ (128 < len bs -> from_bytes bs = None /\ read_addr bs (len bs) = None).
Proof.
  exact (fun bs => conj
    (fun H => match from_ok bs H with
              | ex_intro _ s E => ex_intro _ s (conj E (proj1 (slice_law bs s E))) end)
    (long_law bs)).
Qed.
Print Assumptions C68_bytes.

Example C68_memory_ex :
  exists s, from_bytes [1; 0; 0; 97; 98] = Some s
    /\ write_addr s [9; 9; 9; 9; 9; 9; 9] = ([1; 0; 0; 97; 98; 9; 9], 5)
    /\ write_addr s [9; 9; 9] = ([1; 0; 0], 5) /\ write_addr s [] = ([], 5).
Proof. eexists. split; [vm_compute; reflexivity|]. repeat (split; [vm_compute; reflexivity|]). vm_compute. reflexivity. Qed.

(** Any bytes with the family AF_UNIX and a possible length are an unnamed, an
    abstract or a pathname address, and of one kind only.  (The last case is a
    pathname that no NUL ends: see below.) *)
Theorem C68_classify : forall bs s, from_bytes bs = Some s -> 2 <= len bs <= 110 -> first16 bs = 1 ->
  exists u, as_unix s = Some u
  /\ ( (len bs = 2 /\ is_unnamed u = true /\ as_path u = None /\ as_abstract u = None)
    \/ (exists name, skipn 2 bs = 0 :: name
        /\ is_unnamed u = false /\ as_path u = None /\ as_abstract u = Some name)
    \/ (exists path rest, path <> [] /\ ~ In 0 path /\ skipn 2 bs = path ++ 0 :: rest
        /\ is_unnamed u = false /\ as_path u = Some path /\ as_abstract u = None)
    \/ (skipn 2 bs <> [] /\ ~ In 0 (skipn 2 bs)
        /\ is_unnamed u = false /\ as_path u = None /\ as_abstract u = None)).
Proof. exact classify_law. Qed.
Print Assumptions C68_classify.

Definition kinds (bs : list Z) :=
  match from_bytes bs with
  | Some s => option_map (fun u => (is_unnamed u, as_path u, as_abstract u)) (as_unix s)
  | None => None
  end.

Example C68_classify_ex :
  kinds [1; 0] = Some (true, None, None)
  /\ kinds [1; 0; 0] = Some (false, None, Some [])
  /\ kinds [1; 0; 0; 97; 0] = Some (false, None, Some [97; 0])
  /\ kinds [1; 0; 97; 98; 0; 99] = Some (false, Some [97; 98], None)
  /\ kinds [2; 0; 97; 98; 0; 99] = None
  /\ kinds ([1; 0] ++ repeat 5 109) = None.
Proof. repeat (split; [vm_compute; reflexivity|]). vm_compute. reflexivity. Qed.

(** On Linux a pathname may end with the length of the address, without NUL (as
    from the macro SUN_LEN): then the path is not found. *)
Theorem C68_unterminated_refuted : exists path s u, path <> [] /\ ~ In 0 path
  /\ from_bytes ([1; 0] ++ path) = Some s /\ as_unix s = Some u /\ as_path u <> Some path.
Proof.
  exists [97; 98]. eexists _, _. split; [discriminate|]. split; [intros [H|[H|[]]]; discriminate|].
  split; [vm_compute; reflexivity|]. split; [vm_compute; reflexivity|]. vm_compute. discriminate.
Qed.
Print Assumptions C68_unterminated_refuted.

(** Addresses built from a path or an abstract name are those that are found in
    them again. *)
Theorem C68_path : forall path, path <> [] -> ~ In 0 path -> len path <= 107 ->
  exists u s v, new_path path = Some u /\ from_unix u = Some s /\ as_slice s = [1; 0] ++ path ++ [0]
    /\ as_unix s = Some v /\ as_path v = Some path.
Proof. exact path_law. Qed.
Print Assumptions C68_path.

Theorem C68_abstract : forall name, len name <= 107 ->
  exists u s v, new_abstract name = Some u /\ from_unix u = Some s /\ as_slice s = [1; 0; 0] ++ name
    /\ as_unix s = Some v /\ as_abstract v = Some name.
Proof. exact abstract_law. Qed.
Print Assumptions C68_abstract.

Example C68_named_ex :
  len (repeat 7 107) <= 107 /\ ~ In 0 (repeat 7 107)
  /\ new_path (repeat 7 108) = None /\ new_path [] = None /\ new_abstract (repeat 0 108) = None
  /\ option_map as_slice (from_unix new_unnamed) = Some [1; 0].
Proof.
  split; [vm_compute; discriminate|].
  split; [intros H; apply repeat_spec in H; discriminate|].
  repeat (split; [vm_compute; reflexivity|]). vm_compute. reflexivity.
Qed.

(** Two unix addresses are equal just if all that follows the family is. *)
Theorem C68_equal : forall a b s t u v, from_bytes a = Some s -> from_bytes b = Some t ->
  as_unix s = Some u -> as_unix t = Some v ->
  (unix_eqb u v = true <-> skipn 2 a = skipn 2 b).
Proof. exact equal_law. Qed.
Print Assumptions C68_equal.

(** An abstract name that ends with NUL is another name. *)
Example C68_equal_ex :
  exists s t u v, from_bytes [1; 0; 0; 97] = Some s /\ from_bytes [1; 0; 0; 97; 0] = Some t
    /\ as_unix s = Some u /\ as_unix t = Some v /\ unix_eqb u v = false /\ unix_eqb u u = true.
Proof. eexists _, _, _, _. repeat (split; [vm_compute; reflexivity|]). vm_compute. reflexivity. Qed.

(** Internet addresses: address and port are found again, and no other kind is. *)
Theorem C68_inet : forall ip port, 0 <= ip < 4294967296 -> 0 <= port < 65536 ->
  exists s bs, from_v4 ip port = Some s /\ as_inet s = Some bs /\ v4_of bs = (ip, port)
    /\ as_inet6 s = None /\ as_netlink s = None /\ as_unix s = None /\ len (as_slice s) = 16.
Proof. exact v4_law. Qed.
Print Assumptions C68_inet.

(** A kind is given just for its family and at least its length. *)
Theorem C68_kind : forall size fam bs s, 2 <= size -> from_bytes bs = Some s ->
  as_kind size fam s
  = if (size <=? len bs) && (first16 bs =? fam) then Some (firstn (Z.to_nat size) bs) else None.
Proof. exact kind_law. Qed.
Print Assumptions C68_kind.

(** 11.0.0.1:80; cut to 15 bytes; with a family of IPv6. *)
Example C68_inet_ex :
  option_map as_slice (from_v4 184549377 80) = Some [2; 0; 0; 80; 11; 0; 0; 1; 0; 0; 0; 0; 0; 0; 0; 0]
  /\ (exists s, from_bytes [2; 0; 0; 80; 11; 0; 0; 1; 0; 0; 0; 0; 0; 0; 0] = Some s /\ as_inet s = None)
  /\ (exists s, from_bytes [10; 0; 0; 80; 11; 0; 0; 1; 0; 0; 0; 0; 0; 0; 0; 0] = Some s
      /\ as_inet s = None /\ as_inet6 s = None).
Proof.
  split; [vm_compute; reflexivity|].
  split; eexists; (split; [vm_compute; reflexivity|]); [|split]; vm_compute; reflexivity.
Qed.
