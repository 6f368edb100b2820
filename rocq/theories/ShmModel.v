(** The shared-memory allocator: src/lib/shmem/src/shmalloc_impl.rs (FreelistAllocator) and the
    API of src/lib/shmem/src/allocator.rs (shmalloc, shfree, dropping a block, access through a
    block).

    Memory is modelled as raw addresses.  A block header and a chunk header occupy a range of
    addresses; writing one poisons the user bytes it covers and destroys every other header it
    overlaps, and writing a user byte destroys every header that covers it.  Reading a header
    that is not there is the failing canary (or the null dereference) of the code: [None].
    Not modelled: the system calls themselves.  The address returned by mmap and the name made
    from the clock are inputs of the call; [destruct] (unmapping everything at exit) is left out. *)
From Verif Require Import Base FMap.

(** Sizes of the structures (lines 213-222, 288-296); the canaries exist only in debug builds
    (lines 24-34).  Chunk: 4 + 256 + 4 + 8 + 4 + pad 4 + 8 + 4 + pad 4; Block: 4 + pad 4 + 8 + 4
    + 4 + 4 + pad 4. *)
Definition CHUNK_HDR (debug : bool) : Z := if debug then 296 else 288.
Definition BLOCK_STRUCT_NBYTES (debug : bool) : Z := if debug then 32 else 16.
(** Line 306 *)
Definition BLOCK_STRUCT_ALIGNMENT : Z := 8.
(** Line 143 *)
Definition CHUNK_NBYTES : Z := 8 * 1024 * 1024.

(** Lines 213-222.  The file descriptor is left out. *)
Record chunk := mkChunk {
  c_name : list Z;   (* the name of the file: a buffer of 256 bytes *)
  c_nbytes : Z;
  c_cur : Z;         (* data_cur *)
  c_next : Z }.

(** Lines 288-296 *)
Record block := mkBlock {
  b_next : Z;        (* next_free_block, 0 is null *)
  b_nbytes : Z;
  b_off : Z }.       (* data_offset *)

Record memory := mkMem {
  m_blocks : fmap Z block;
  m_chunks : fmap Z chunk;
  m_bytes : Z -> Z }.

(** A byte no user wrote. *)
Definition POISON : Z := -1.

Definition overlaps (a n b m : Z) : bool := (a <? b + m) && (b <? a + n).

(** Forget the headers that overlap [a, a+n). *)
Definition clobber_blocks (debug : bool) (a n : Z) (m : fmap Z block) : fmap Z block :=
  filter (fun p => negb (overlaps a n (fst p) (BLOCK_STRUCT_NBYTES debug))) m.
Definition clobber_chunks (debug : bool) (a n : Z) (m : fmap Z chunk) : fmap Z chunk :=
  filter (fun p => negb (overlaps a n (fst p) (CHUNK_HDR debug))) m.
Definition fill (a n v : Z) (f : Z -> Z) : Z -> Z :=
  fun x => if (a <=? x) && (x <? a + n) then v else f x.

(** A freshly initialised block header, chunk header, and a user's write of one byte. *)
Definition write_block (debug : bool) (p : Z) (b : block) (m : memory) : memory :=
  mkMem ((p, b) :: clobber_blocks debug p (BLOCK_STRUCT_NBYTES debug) (m_blocks m))
        (clobber_chunks debug p (BLOCK_STRUCT_NBYTES debug) (m_chunks m))
        (fill p (BLOCK_STRUCT_NBYTES debug) POISON (m_bytes m)).
Definition write_chunk (debug : bool) (p : Z) (c : chunk) (m : memory) : memory :=
  mkMem (clobber_blocks debug p (CHUNK_HDR debug) (m_blocks m))
        ((p, c) :: clobber_chunks debug p (CHUNK_HDR debug) (m_chunks m))
        (fill p (CHUNK_HDR debug) POISON (m_bytes m)).
Definition write_byte (debug : bool) (p v : Z) (m : memory) : memory :=
  mkMem (clobber_blocks debug p 1 (m_blocks m)) (clobber_chunks debug p 1 (m_chunks m))
        (fill p 1 v (m_bytes m)).
Fixpoint write_bytes (debug : bool) (p : Z) (vs : list Z) (m : memory) : memory :=
  match vs with
  | [] => m
  | v :: vs => write_bytes debug (p + 1) vs (write_byte debug p v m)
  end.

(** An update of one field of a header that is already there touches nothing else. *)
Definition set_block (p : Z) (b : block) (m : memory) : memory :=
  mkMem (put p b (m_blocks m)) (m_chunks m) (m_bytes m).
Definition set_chunk (p : Z) (c : chunk) (m : memory) : memory :=
  mkMem (m_blocks m) (put p c (m_chunks m)) (m_bytes m).

(** Lines 397-401 *)
Record falloc := mkFalloc {
  fa_mem : memory;
  fa_first : Z;        (* first_chunk, 0 is null *)
  fa_free : Z;         (* next_free_block *)
  fa_nbytes : Z }.     (* chunk_nbytes *)

(** core: [<*const u8>::align_offset], for a power of two *)
Definition align_offset (p a : Z) : Z := (- p) mod a.

(** What the kernel and the clock answer if a chunk is to be added. *)
Record oracle := mkOracle { o_base : Z; o_name : list Z }.

(** Lines 246-261 and 416-429: map a chunk and put it in front of the list.  The mapping of a
    new file is zeroed. *)
Definition add_chunk (debug : bool) (o : oracle) (s : falloc) : falloc :=
  let m := mkMem (m_blocks (fa_mem s)) (m_chunks (fa_mem s))
                 (fill (o_base o) (fa_nbytes s) 0 (m_bytes (fa_mem s))) in
  mkFalloc (write_chunk debug (o_base o) (mkChunk (o_name o) (fa_nbytes s) 0 (fa_first s)) m)
           (o_base o) (fa_free s) (fa_nbytes s).

(** Lines 320-332: (data_begin, data_end) *)
Definition get_block_data_range (m : memory) (p : Z) : option (Z * Z) :=
  do b <- get p (m_blocks m);
  Some (p + b_off b, p + b_off b + b_nbytes b).

(** Lines 432-457: (pred, block).  The walk is cut after [fuel] steps, which is a panic value. *)
Fixpoint check_free_list (fuel : nat) (m : memory) (pred p : Z) (n a : Z) : option (Z * Z) :=
  if p =? 0 then Some (pred, 0) else
  match fuel with
  | O => None
  | S fuel =>
    do r <- get_block_data_range m p;
    do b <- get p (m_blocks m);
    if (b_nbytes b =? n) && (align_offset (fst r) a =? 0) then Some (pred, p)
    else check_free_list fuel m p (b_next b) n a
  end.

(** Lines 459-468 *)
Definition find_next_suitable_positions (p n a : Z) : Z * Z :=
  let start := p + align_offset p a in (start, start + n).

Definition u32 (x : Z) : Z := x mod 2 ^ 32.

(** Lines 470-508; the block is 0 (null) when it does not fit. *)
Definition try_creating_block_in_chunk (debug : bool) (m : memory) (cp n a : Z)
  : option (memory * Z) :=
  do c <- get cp (m_chunks m);
  let chunk_end := cp + c_nbytes c in
  let data_start := cp + CHUNK_HDR debug + c_cur c in
  let '(bs, be) := find_next_suitable_positions data_start (BLOCK_STRUCT_NBYTES debug)
                                                BLOCK_STRUCT_ALIGNMENT in
  let '(ds, de) := find_next_suitable_positions be n a in
  let data_offset := ds - bs in
  check (0 <? data_offset);
  if de <=? chunk_end then Some (write_block debug bs (mkBlock 0 (u32 n) (u32 data_offset)) m, bs)
  else Some (m, 0).

(** Lines 510-571 *)
Definition alloc (debug : bool) (o : oracle) (n a : Z) (s : falloc) : option (falloc * Z) :=
  do pb <- check_free_list (S (length (m_blocks (fa_mem s)))) (fa_mem s) 0 (fa_free s) n a;
  let '(pred, p) := pb in
  if negb (p =? 0) then
    (* lines 515-532 *)
    do b <- get p (m_blocks (fa_mem s));
    do s <- (if pred =? 0
             then Some (mkFalloc (fa_mem s) (fa_first s) (b_next b) (fa_nbytes s))
             else do q <- get pred (m_blocks (fa_mem s));
                  Some (mkFalloc (set_block pred (mkBlock (b_next b) (b_nbytes q) (b_off q)) (fa_mem s))
                                 (fa_first s) (fa_free s) (fa_nbytes s)));
    do r <- get_block_data_range (fa_mem s) p;
    check (align_offset (fst r) a =? 0);
    Some (s, p)
  else
    (* lines 535-571 *)
    do mp <- try_creating_block_in_chunk debug (fa_mem s) (fa_first s) n a;
    let s := mkFalloc (fst mp) (fa_first s) (fa_free s) (fa_nbytes s) in
    let s := if snd mp =? 0 then add_chunk debug o s else s in
    do mp <- try_creating_block_in_chunk debug (fa_mem s) (fa_first s) n a;
    let '(m, p) := mp in
    do b <- get p (m_blocks m);
    check (0 <? b_off b);
    let block_end := p + b_off b + n in
    do c <- get (fa_first s) (m_chunks m);
    let m := set_chunk (fa_first s) (mkChunk (c_name c) (c_nbytes c) (u32 (block_end - fa_first s)) (c_next c)) m in
    check (negb (p =? 0));
    do r <- get_block_data_range m p;
    check (align_offset (fst r) a =? 0);
    Some (mkFalloc m (fa_first s) (fa_free s) (fa_nbytes s), p).

(** Lines 573-586 *)
Definition dealloc (p : Z) (s : falloc) : option falloc :=
  if p =? 0 then Some s else
  do b <- get p (m_blocks (fa_mem s));
  Some (mkFalloc (set_block p (mkBlock (fa_free s) (b_nbytes b) (b_off b)) (fa_mem s))
                 (fa_first s) p (fa_nbytes s)).

(** Lines 403-414: [new] and [init] *)
Definition no_memory : memory := mkMem [] [] (fun _ => POISON).
Definition falloc_new (debug : bool) (o : oracle) : falloc :=
  add_chunk debug o (mkFalloc no_memory 0 0 CHUNK_NBYTES).

(** Lines 334-348: the element [0] of the slice of values of [size] bytes that the block holds,
    as an address.  Rust divides by the size (a panic for a zero-sized type) and checks the
    index. *)
Definition get_ref0 (m : memory) (p size : Z) : option Z :=
  do r <- get_block_data_range m p;
  let len := snd r - fst r in
  check (if size =? 0 then len =? 0 else len mod size =? 0);
  check (negb (size =? 0));
  check (0 <? len / size);
  Some (fst r).

(** ** The API (allocator.rs) *)

(** A ShMemBlock<T> (lines 130-136): the pointer, and the size and alignment of T. *)
Record handle := mkHandle { h_block : Z; h_size : Z; h_align : Z }.

(** Lines 267-271: the allocator, nallocs, and the handles that exist (by number; [None] once
    they are gone). *)
Record shm := mkShm {
  sh_alloc : falloc;
  sh_nallocs : Z;
  sh_handles : list (option handle) }.

(** Lines 274-283 *)
Definition shm_new (debug : bool) (o : oracle) : shm := mkShm (falloc_new debug o) 0 [].

(** Lines 286-300: shmalloc(val) of a T with the given bytes and alignment *)
Definition shmalloc (debug : bool) (o : oracle) (val : list Z) (a : Z) (s : shm) : option (shm * handle) :=
  let n := Z.of_nat (length val) in
  do fp <- alloc debug o n a (sh_alloc s);
  let '(f, p) := fp in
  do x <- get_ref0 (fa_mem f) p n;
  let f := mkFalloc (write_bytes debug x val (fa_mem f)) (fa_first f) (fa_free f) (fa_nbytes f) in
  let h := mkHandle p n a in
  Some (mkShm f (sh_nallocs s + 1) (sh_handles s ++ [Some h]), h).

(** Lines 167-178: the drop of a block *)
Definition drop_block (h : handle) (s : shm) : option shm :=
  if negb (h_block h =? 0) then
    do f <- dealloc (h_block h) (sh_alloc s); Some (mkShm f (sh_nallocs s) (sh_handles s))
  else Some s.

(** Lines 42-47 and 302-306: shfree(block).  The pointer of the block is set to null before it
    is handed to [dealloc]; the block is then dropped. *)
Definition shfree (h : handle) (s : shm) : option shm :=
  let h := mkHandle 0 (h_size h) (h_align h) in
  do f <- dealloc (h_block h) (sh_alloc s);
  drop_block h (mkShm f (sh_nallocs s - 1) (sh_handles s)).

(** Lines 161-164: reading the value of a block; [write_at] is a store to one byte of the value
    through the shared reference (the types stored are atomics and mutexes). *)
Fixpoint read_bytes (m : memory) (p : Z) (n : nat) : list Z :=
  match n with O => [] | S n => m_bytes m p :: read_bytes m (p + 1) n end.
Definition deref (h : handle) (s : shm) : option (list Z) :=
  do x <- get_ref0 (fa_mem (sh_alloc s)) (h_block h) (h_size h);
  Some (read_bytes (fa_mem (sh_alloc s)) x (Z.to_nat (h_size h))).
Definition write_at (debug : bool) (h : handle) (i v : Z) (s : shm) : option shm :=
  do x <- get_ref0 (fa_mem (sh_alloc s)) (h_block h) (h_size h);
  let f := sh_alloc s in
  Some (mkShm (mkFalloc (write_byte debug (x + i) v (fa_mem f)) (fa_first f) (fa_free f) (fa_nbytes f))
              (sh_nallocs s) (sh_handles s)).

(** ** Histories: every handle is owned, so an operation on a handle that is gone does nothing *)
Inductive shop :=
| SMalloc (val : list Z) (a : Z) (o : oracle)
| SDrop (i : nat)
| SFree (i : nat)
| SWrite (i : nat) (k v : Z).

Definition handle_at (s : shm) (i : nat) : option handle :=
  match nth_error (sh_handles s) i with Some (Some h) => Some h | _ => None end.
Fixpoint forget {A} (i : nat) (l : list (option A)) : list (option A) :=
  match l, i with
  | [], _ => []
  | _ :: l, O => None :: l
  | x :: l, S i => x :: forget i l
  end.
Definition forget_handle (i : nat) (s : shm) : shm :=
  mkShm (sh_alloc s) (sh_nallocs s) (forget i (sh_handles s)).

Definition shstep (debug : bool) (s : shm) (op : shop) : option shm :=
  match op with
  | SMalloc val a o => do r <- shmalloc debug o val a s; Some (fst r)
  | SDrop i =>
    match handle_at s i with
    | Some h => drop_block h (forget_handle i s)
    | None => Some s
    end
  | SFree i =>
    match handle_at s i with
    | Some h => shfree h (forget_handle i s)
    | None => Some s
    end
  | SWrite i k v =>
    match handle_at s i with
    | Some h => if (0 <=? k) && (k <? h_size h) then write_at debug h k v s else Some s
    | None => Some s
    end
  end.

Fixpoint shrun (debug : bool) (ops : list shop) (s : shm) : option shm :=
  match ops with
  | [] => Some s
  | op :: ops => do s <- shstep debug s op; shrun debug ops s
  end.
