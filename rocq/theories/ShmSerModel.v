(** Passing a shared-memory block to another process: serialize, the string form, and
    deserialize (src/lib/shmem/src/shmalloc_impl.rs, src/lib/shmem/src/allocator.rs,
    src/lib/shmem/src/util.rs).  Text is a list of bytes.

    The receiving process has mappings: a mapping is an address of that process and the chunk
    (named by its address in the allocating process) whose file is mapped there.  Every access
    of the receiving process goes through its mappings to the one shared memory.
    Simplified: truncation of over-long text in FormatBuffer is by bytes, which is the same for
    the ASCII text used here. *)
From Verif Require Import Base FMap ShmModel.

(** ** Numbers as text (core::fmt Display and FromStr of isize) *)
Definition DIGIT0 : Z := 48.
Definition MINUS : Z := 45.
Definition PLUS : Z := 43.
Definition SEMI : Z := 59.

Fixpoint dec (fuel : nat) (n : Z) : list Z :=
  match fuel with
  | O => []
  | S fuel => if n <? 10 then [DIGIT0 + n] else dec fuel (n / 10) ++ [DIGIT0 + n mod 10]
  end.
(** Twenty digits are enough for 64 bits. *)
Definition display_isize (n : Z) : list Z := if n <? 0 then MINUS :: dec 20 (- n) else dec 20 n.

Definition is_digit (c : Z) : bool := (DIGIT0 <=? c) && (c <=? DIGIT0 + 9).
Fixpoint undec (acc : Z) (l : list Z) : option Z :=
  match l with
  | [] => Some acc
  | c :: l => if is_digit c then undec (10 * acc + (c - DIGIT0)) l else None
  end.
Definition ISIZE_MAX : Z := 9223372036854775807.
(** [None] is the ParseIntError. *)
Definition parse_isize (l : list Z) : option Z :=
  let ranged (r : option Z) := match r with
    | Some n => if (- ISIZE_MAX - 1 <=? n) && (n <=? ISIZE_MAX) then Some n else None
    | None => None
    end in
  match l with
  | [] => None
  | c :: r =>
    if c =? MINUS then match r with [] => None | _ => ranged (option_map Z.opp (undec 0 r)) end
    else if c =? PLUS then match r with [] => None | _ => ranged (undec 0 r) end
    else ranged (undec 0 l)
  end.

(** ** Names (util.rs) *)

(** util.rs lines 1-7 *)
Definition PATH_BUF : nat := 256.
(** core: FormatBuffer::<255> keeps 254 bytes of text (format_buffer.rs lines 35-36) *)
Definition FORMAT_CAP : nat := 254.
Definition format_buffer (t : list Z) : list Z := firstn FORMAT_CAP t.

(** A zeroed buffer with the text copied to its start (the zip of allocator.rs lines 248-252). *)
Definition into_buf (t : list Z) : list Z := firstn PATH_BUF (t ++ repeat 0 PATH_BUF).
(** util.rs lines 26-38 *)
Definition buf_from_utf8_str (t : list Z) : option (list Z) :=
  if (PATH_BUF <=? length t)%nat then None else Some (into_buf t).
(** util.rs lines 18-24 *)
Fixpoint trim_null_bytes (b : list Z) : option (list Z) :=
  match b with
  | [] => None
  | c :: b => if c =? 0 then Some [] else do t <- trim_null_bytes b; Some (c :: t)
  end.

(** shmalloc_impl.rs lines 118-141: "/dev/shm/shadow_shmemfile_{}.{:09}-{:010}" *)
Definition PREFIX : list Z :=
  [47; 100; 101; 118; 47; 115; 104; 109; 47; 115; 104; 97; 100; 111; 119; 95; 115; 104; 109; 101; 109; 102; 105; 108; 101; 95].
Definition padded (w : nat) (n : Z) : list Z :=
  let d := display_isize n in repeat DIGIT0 (w - length d) ++ d.
Definition format_shmem_name (sec nsec pid : Z) : option (list Z) :=
  buf_from_utf8_str (format_buffer (PREFIX ++ display_isize sec ++ [46] ++ padded 9 nsec ++ [45] ++ padded 10 pid)).

(** ** Serialization *)

(** shmalloc_impl.rs lines 300-303 *)
Record serialized := mkSer { se_name : list Z; se_offset : Z }.

(** Lines 589-617: the walk over the chunks; [Some None] is "not found". *)
Fixpoint find_chunk (fuel : nat) (debug : bool) (m : memory) (nbytes c p : Z) : option (option Z) :=
  if c =? 0 then Some None else
  match fuel with
  | O => None
  | S fuel =>
    do ch <- get c (m_chunks m);
    if (c + CHUNK_HDR debug <=? p) && (p <? c + nbytes) then Some (Some c)
    else find_chunk fuel debug m nbytes (c_next ch) p
  end.

(** Lines 620-638; a block of another allocator aborts the process. *)
Definition serialize (debug : bool) (f : falloc) (p : Z) : option serialized :=
  do b <- get p (m_blocks (fa_mem f));
  do r <- find_chunk (S (length (m_chunks (fa_mem f)))) debug (fa_mem f) (fa_nbytes f) (fa_first f) p;
  do c <- r;
  do ch <- get c (m_chunks (fa_mem f));
  check (0 <? p - c);
  Some (mkSer (c_name ch) (p - c)).

(** allocator.rs lines 220-227 *)
Definition to_text (e : serialized) : option (list Z) :=
  do t <- trim_null_bytes (se_name e);
  Some (display_isize (se_offset e) ++ [SEMI] ++ t).

(** core: str::split_once *)
Fixpoint split_once (sep : Z) (l : list Z) : option (list Z * list Z) :=
  match l with
  | [] => None
  | c :: l => if c =? sep then Some ([], l)
              else match split_once sep l with Some (a, b) => Some (c :: a, b) | None => None end
  end.

(** allocator.rs lines 233-260: [None] is a panic, [Some None] the error. *)
Definition from_text (t : list Z) : option (option serialized) :=
  match split_once SEMI t with
  | Some (offset_str, path_str) =>
    do offset <- parse_isize offset_str;      (* .unwrap() *)
    Some (Some (mkSer (into_buf (format_buffer path_str)) offset))
  | None => Some None
  end.

(** ** Deserialization *)

(** shmalloc_impl.rs line 658 *)
Definition CHUNK_CAPACITY : nat := 64.

(** Lines 660-666, with the mappings of the process. *)
Record deser := mkDeser {
  d_chunks : list Z;            (* chunks[0..nmapped_chunks] *)
  d_maps : list (Z * Z) }.      (* (address here, chunk) *)
Definition deser_new : deser := mkDeser [] [].

(** The shared memory behind an address of the receiving process. *)
Fixpoint translate (maps : list (Z * Z)) (x : Z) : option Z :=
  match maps with
  | [] => None
  | (v, c) :: maps => if (v <=? x) && (x <? v + CHUNK_NBYTES) then Some (c + (x - v)) else translate maps x
  end.

Definition bytes_eqb (a b : list Z) : bool := if list_eq_dec Z.eq_dec a b then true else false.

(** Lines 677-688 *)
Fixpoint find_view (m : memory) (maps : list (Z * Z)) (views : list Z) (name : list Z) : option (option Z) :=
  match views with
  | [] => Some None
  | v :: views =>
    do c <- translate maps v;
    do ch <- get c (m_chunks m);
    if bytes_eqb (c_name ch) name then Some (Some v) else find_view m maps views name
  end.

(** open() of a name: the chunk whose file has it; a missing file aborts the process. *)
Fixpoint open_file (cs : fmap Z chunk) (name : list Z) : option Z :=
  match cs with
  | [] => None
  | (c, ch) :: cs => if bytes_eqb (c_name ch) name then Some c else open_file cs name
  end.

(** Lines 690-701; [v] is the address mmap answers *)
Definition map_chunk (m : memory) (d : deser) (name : list Z) (v : Z) : option (deser * Z) :=
  do c <- open_file (m_chunks m) name;
  let maps := (v, c) :: d_maps d in
  if (length (d_chunks d) =? CHUNK_CAPACITY)%nat then Some (mkDeser (d_chunks d) maps, v)
  else Some (mkDeser (d_chunks d ++ [v]) maps, v).

(** Lines 703-721 *)
Definition deserialize (m : memory) (d : deser) (e : serialized) (v : Z) : option (deser * Z) :=
  do r <- find_view m (d_maps d) (d_chunks d) (se_name e);
  do dc <- match r with Some c => Some (d, c) | None => map_chunk m d (se_name e) v end;
  let '(d, c) := dc in
  check (0 <? se_offset e);
  let p := c + se_offset e in
  check (negb (p =? 0));
  do q <- translate (d_maps d) p;
  do b <- get q (m_blocks m);
  Some (d, p).

(** Access to the value through the alias (lines 320-340 of shmalloc_impl.rs, allocator.rs lines
    206-209), in the receiving process. *)
Fixpoint read_view (m : memory) (maps : list (Z * Z)) (x : Z) (n : nat) : option (list Z) :=
  match n with
  | O => Some []
  | S n => do y <- translate maps x; do r <- read_view m maps (x + 1) n; Some (m_bytes m y :: r)
  end.
Definition alias_deref (m : memory) (d : deser) (p size : Z) : option (list Z) :=
  do q <- translate (d_maps d) p;
  do b <- get q (m_blocks m);
  check (if size =? 0 then b_nbytes b =? 0 else b_nbytes b mod size =? 0);
  check (negb (size =? 0));
  check (0 <? b_nbytes b / size);
  read_view m (d_maps d) (p + b_off b) (Z.to_nat size).

(** ** Histories of the two processes *)
Inductive dop :=
| DMain (op : shop)
| DSend (i : nat) (v : Z).     (* block i as text to the other process *)

(** The text of handle [i], parsed and deserialized by the other process. *)
Definition send (debug : bool) (s : shm) (d : deser) (i : nat) (v : Z) : option (deser * option Z) :=
  match handle_at s i with
  | None => Some (d, None)
  | Some h =>
    do e <- serialize debug (sh_alloc s) (h_block h);
    do t <- to_text e;
    do r <- from_text t;
    match r with
    | None => Some (d, None)
    | Some e => do x <- deserialize (fa_mem (sh_alloc s)) d e v; Some (fst x, Some (snd x))
    end
  end.

Definition dstep (debug : bool) (sd : shm * deser) (op : dop) : option (shm * deser) :=
  match op with
  | DMain op => do s <- shstep debug (fst sd) op; Some (s, snd sd)
  | DSend i v => do x <- send debug (fst sd) (snd sd) i v; Some (fst sd, fst x)
  end.
Fixpoint drun (debug : bool) (ops : list dop) (sd : shm * deser) : option (shm * deser) :=
  match ops with
  | [] => Some sd
  | op :: ops => do sd <- dstep debug sd op; drun debug ops sd
  end.
