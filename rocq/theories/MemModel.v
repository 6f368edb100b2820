(** Model of src/main/host/memory_manager/memory_mapper.rs (all of it), memory_manager/mod.rs (lines
    294-720) and memory_copier.rs, and of the calls of src/main/host/syscall/handler/mman.rs that end
    there. [None] is a panic of Shadow, or a fault of Shadow on its own memory.
    Not modelled: counting of misses, logging, names of mapped files (a file is a number), the cursors
    and the references kept by Shadow to memory of the process (a reference is used at once), the
    opening of a file in the process for mmap, and a process before its mapper is initialised, when all
    calls are made natively. Elements of more than one byte are read and written as bytes; their
    alignment is an argument. *)
From Verif Require Import Base IntervalModel MemKernel.

(* proc_maps.rs:14-24; what the code distinguishes *)
Inductive path := PHeap | PStack | PFile (o : Z).
(* memory_mapper.rs:37-44; 0 is the null pointer *)
Record region := mkReg { r_base : Z; r_prot : prot; r_shared : bool; r_path : option path }.
Definition with_base (b : Z) (r : region) := mkReg b (r_prot r) (r_shared r) (r_path r).
Definition with_prot (p : prot) (r : region) := mkReg (r_base r) p (r_shared r) (r_path r).

(* memory_mapper.rs:83-95; the file itself is part of the kernel's state *)
Record mapper := mkMap { mm_regs : imap region; mm_heap : Z * Z }.
Record state := mkSt { s_k : kern; s_m : mapper }.

(* memory_mapper.rs:31,33 *)
Definition HEAP_PROT : prot := RW.
Definition STACK_PROT : prot := RW.

(** * IntervalMap::get_mut followed by an assignment: interval_map.rs:277-282 *)
Definition im_set (m : imap region) (x : Z) (v : region) : option (imap region) :=
  do g <- get_index m x;
  do i <- g;
  Some (mkIM (im_starts m) (im_ends m) (set_nth (im_vals m) i v)).
(** IntervalMap::get(..).unwrap() *)
Definition im_get1 (m : imap region) (x : Z) : option (interval * region) :=
  do g <- im_get m x; g.

(** * ShmFile *)
(* memory_mapper.rs:107-116 *)
Definition shm_alloc (e : Z) (k : kern) : kern := if k_flen k <? e then f_extend e k else k.
(* memory_mapper.rs:119-128; fallocate fails on an empty range *)
Definition shm_dealloc (s e : Z) (k : kern) : option kern := check (s <? e); Some (f_punch s e k).
(* memory_mapper.rs:131-143; the kernel picks the address [b] *)
Definition mmap_into_shadow (b s e : Z) (p : prot) (k : kern) : kern := s_mmap b s (e - s) p k.
(* memory_mapper.rs:148-177; no mapper exists yet, so the bytes are read with the copier *)
Definition copy_into_file (rs re base s e : Z) (k : kern) : option kern :=
  if e <=? s then Some k else
  check (negb (base =? 0));
  check (inr rs re s);
  check (inr rs re (e - 1));
  let l := k_read_prefix k s (Z.to_nat (e - s)) in
  check (Z.of_nat (length l) =? e - s);
  s_write k (base + (s - rs)) l.
(* memory_mapper.rs:180-192 *)
Definition mmap_into_plugin (s e : Z) (p : prot) (k : kern) : kern :=
  set_plug (over s (s + rup (e - s)) (fun x => Some (p, CShm (s + (x - s)))) (k_plug k)) k.

(** * Initialisation *)
(** A line of /proc/<pid>/maps *)
Definition pmap : Type := interval * (prot * bool * option path).
(* memory_mapper.rs:196-223 *)
Fixpoint get_regions (m : imap region) (l : list pmap) : option (imap region) :=
  match l with
  | [] => Some m
  | ((s, e), (p, sh, pa)) :: r =>
      do (m', muts) <- im_insert m s e (mkReg 0 p sh pa);
      check (match muts with [] => true | _ => false end);
      get_regions m' r
  end.

Definition prot_eqb (a b : prot) : bool := Bool.eqb (p_read a) (p_read b) && Bool.eqb (p_write a) (p_write b).
Definition path_eqb (a b : option path) : bool :=
  match a, b with
  | None, None => true
  | Some PHeap, Some PHeap => true
  | Some PStack, Some PStack => true
  | Some (PFile x), Some (PFile y) => x =? y
  | _, _ => false
  end.
Definition region_eqb (a b : region) : bool :=
  (r_base a =? r_base b) && prot_eqb (r_prot a) (r_prot b) && Bool.eqb (r_shared a) (r_shared b) && path_eqb (r_path a) (r_path b).

(* memory_mapper.rs:355-384 *)
Fixpoint coalesce_from (out : imap region) (agg : option (interval * region)) (l : list (interval * region)) : option (imap region) :=
  match l with
  | [] => match agg with
          | None => Some out
          | Some ((s, e), r) => do (out', _) <- im_insert out s e r; Some out'
          end
  | ((s, e), r) :: rest =>
      check (r_base r =? 0);
      match agg with
      | None => coalesce_from out (Some ((s, e), r)) rest
      | Some ((s0, e0), r0) =>
          if (s =? e0) && region_eqb r r0 then coalesce_from out (Some ((s0, e), r0)) rest
          else do (out', _) <- im_insert out s0 e0 r0; coalesce_from out' (Some ((s, e), r)) rest
      end
  end.
Definition coalesce_regions (m : imap region) : option (imap region) := coalesce_from im_new None (im_iter m).

Definition is_path (p : path) (q : interval * region) : bool := path_eqb (r_path (snd q)) (Some p).
(* memory_mapper.rs:226-269; [brk0]: what the process's brk(0) answers *)
Definition get_heap (brk0 b : Z) (k : kern) (m : imap region) : option (kern * imap region * (Z * Z)) :=
  match filter (is_path PHeap) (im_iter m) with
  | [] => Some (k, m, (brk0, brk0))
  | [((s, e), r)] =>
      let k := shm_alloc e k in
      let r := with_base b r in
      let k := mmap_into_shadow b s e HEAP_PROT k in
      do k <- copy_into_file s e b s e k;
      let k := mmap_into_plugin s e HEAP_PROT k in
      do (m', muts) <- im_insert m s e r;
      check (Nat.eqb (length muts) 1);
      Some (k, m', (s, e))
  | _ => None
  end.

(* memory_mapper.rs:283 *)
Definition MAX_STACK : Z := 8 * 2 ^ 20.
(* memory_mapper.rs:273-325; the assertions of 320-324 are debug only *)
Definition map_stack (b : Z) (k : kern) (m : imap region) : option (kern * imap region) :=
  match filter (is_path PStack) (im_iter m) with
  | [((cs, ce), r)] =>
      let e := ce - PAGE in
      let s := ce - MAX_STACK in
      let r := with_base b r in
      let k := mmap_into_shadow b s e STACK_PROT k in
      let k := shm_alloc e k in
      do k <- if cs <? e then copy_into_file s e b cs e k else Some k;
      let k := mmap_into_plugin s e STACK_PROT k in
      do (m', _) <- im_insert m s e r;
      Some (k, m')
  | _ => None
  end.

(* memory_mapper.rs:387-434; [bh], [bs]: where the kernel maps heap and stack into Shadow *)
Definition mapper_new (maps : list pmap) (brk0 bh bs : Z) (k : kern) : option state :=
  do m <- get_regions im_new maps;
  do m <- coalesce_regions m;
  do (k, m, h) <- get_heap brk0 bh k m;
  do (k, m) <- map_stack bs k m;
  Some (mkSt k (mkMap m h)).

(** * Changes of the address space *)
(* memory_mapper.rs:450-525 *)
Definition unmap1 (km : kern * imap region) (mu : mutation region) : option (kern * imap region) :=
  let '(k, m) := km in
  match mu with
  | ModifiedBegin (s, e) ns =>
      do (_, r) <- im_get1 m ns;
      if r_base r =? 0 then Some (k, m) else
      do k <- shm_dealloc s ns k;
      let k := s_munmap (r_base r) (ns - s) k in
      do m <- im_set m ns (with_base (r_base r + (ns - s)) r);
      Some (k, m)
  | ModifiedEnd (s, e) ne =>
      do (_, r) <- im_get1 m s;
      if r_base r =? 0 then Some (k, m) else
      do k <- shm_dealloc ne e k;
      Some (s_munmap (r_base r + (ne - s)) (e - ne) k, m)
  | Split _ (ls, le) (rs, re) =>
      do (_, lr) <- im_get1 m ls;
      do (_, rr) <- im_get1 m rs;
      if r_base lr =? 0 then Some (k, m) else
      do k <- shm_dealloc le rs k;
      let k := s_munmap (r_base lr + (le - ls)) (rs - le) k in
      do m <- im_set m rs (with_base (r_base rr + (rs - ls)) rr);
      Some (k, m)
  | Removed (s, e) r =>
      if r_base r =? 0 then Some (k, m) else
      do k <- shm_dealloc s e k;
      Some (s_munmap (r_base r) (e - s) k, m)
  end.
Fixpoint unmap_mutations (km : kern * imap region) (l : list (mutation region)) : option (kern * imap region) :=
  match l with [] => Some km | mu :: r => do km' <- unmap1 km mu; unmap_mutations km' r end.
(** regions.clear followed by unmap_mutations *)
Definition clear_unmap (s e : Z) (k : kern) (m : imap region) : option (kern * imap region) :=
  do (m, muts) <- im_clear m s e;
  unmap_mutations (k, m) muts.

Definition no_muts (l : list (mutation region)) : bool := match l with [] => true | _ => false end.

(* memory_mapper.rs:534-607; [b]: where the kernel maps it into Shadow *)
Definition handle_mmap_result (addr len : Z) (p : prot) (src : source) (ty : mtype) (b : Z) (st : state) : option state :=
  if len =? 0 then Some st else
  let s := addr in
  let e := addr + len in
  let anon := match src with Anon _ => true | FileAt _ _ => false end in
  (* MAP_SHARED_VALIDATE is MAP_SHARED | MAP_PRIVATE *)
  let shared := match ty with TShared => true | _ => false end in
  let pa := match src with Anon _ => None | FileAt o _ => Some (PFile o) end in
  do (k, m) <- clear_unmap s e (s_k st) (mm_regs (s_m st));
  let '(k, base) :=
    if anon && negb shared then
      let k := shm_alloc e k in
      let k := mmap_into_shadow b s e p k in
      (mmap_into_plugin s e p k, b)
    else (k, 0) in
  do (m, muts) <- im_insert m s e (mkReg base p shared pa);
  check (no_muts muts);
  Some (mkSt k (mkMap m (mm_heap (s_m st)))).

(* mod.rs:587-605; [ans]: the kernel's answer, [None] for an error *)
Definition do_mmap (ans : option Z) (len : Z) (p : prot) (src : source) (ty : mtype) (b : Z) (st : state) : option state :=
  match ans with
  | None => Some st
  | Some a => handle_mmap_result a len p src ty b (mkSt (k_mmap a len p src ty (s_k st)) (s_m st))
  end.

(* memory_mapper.rs:613-625 *)
Definition handle_munmap_result (a len : Z) (st : state) : option state :=
  if len =? 0 then Some st else
  do (k, m) <- clear_unmap a (a + len) (s_k st) (mm_regs (s_m st));
  Some (mkSt k (mkMap m (mm_heap (s_m st)))).
(* mod.rs:607-641 *)
Definition do_munmap (a len : Z) (ok : bool) (st : state) : option state :=
  if ok then handle_munmap_result a len (mkSt (k_munmap a len (s_k st)) (s_m st)) else Some st.

(** memcpy of [n] bytes in Shadow *)
Fixpoint s_copy (k : kern) (src dst : Z) (n : nat) : option kern :=
  match n with
  | O => Some k
  | S n' => do v <- s_load k src; do k <- s_store k dst v; s_copy k (src + 1) (dst + 1) n'
  end.

(* memory_mapper.rs:681-752: what happens to the region [r] that was at [old] and is now at [new] *)
Definition move_region (old osz nsz new b : Z) (r : region) (k : kern) : option (kern * region) :=
  if r_base r =? 0 then Some (k, r) else
  check (match r_path r with None => true | _ => false end);
  if negb (new =? old) then
    check (negb (inr new (new + nsz) old));
    check (negb (inr old (old + osz) new));
    let k := shm_alloc (new + nsz) k in
    let k := mmap_into_plugin new (new + nsz) (r_prot r) k in
    let k := mmap_into_shadow b new (new + nsz) (r_prot r) k in
    do k <- s_copy k (r_base r) b (Z.to_nat (Z.min osz nsz));
    let k := s_munmap (r_base r) osz k in
    do k <- shm_dealloc old (old + osz) k;
    Some (k, with_base b r)
  else if nsz <? osz then
    do k <- shm_dealloc (new + nsz) (old + osz) k;
    Some (s_mremap (r_base r) osz nsz (r_base r) k, r)
  else if osz <? nsz then
    let k := shm_alloc (new + nsz) k in
    Some (s_mremap (r_base r) osz nsz b k, with_base b r)
  else Some (k, r).

(* memory_mapper.rs:631-758 *)
Definition handle_mremap (old osz nsz : Z) (maymove : bool) (ans : option Z) (b : Z) (st : state) : option state :=
  match ans with
  | None => Some st
  | Some new =>
      let h := mm_heap (s_m st) in
      let m := mm_regs (s_m st) in
      if maymove && (osz =? 0) then
        let k := k_mremap_dup old nsz new (s_k st) in
        do (_, r) <- im_get1 m old;
        check (r_shared r);
        check (r_base r =? 0);
        do (m, muts) <- im_insert m new (new + nsz) r;
        do (k, m) <- unmap_mutations (k, m) muts;
        Some (mkSt k (mkMap m h))
      else
        let k := k_mremap old osz nsz new (s_k st) in
        do (m, muts) <- im_clear m old (old + osz);
        do r <- match muts with
                | [Removed (s, e) r] => check ((s =? old) && (e =? old + osz)); Some r
                | _ => None
                end;
        do (k, m) <- clear_unmap new (new + nsz) k m;
        do (k, r) <- move_region old osz nsz new b r k;
        do (m, muts) <- im_insert m new (new + nsz) r;
        check (no_muts muts);
        Some (mkSt k (mkMap m h))
  end.

(* memory_mapper.rs:763-878; [ok]: whether the kernel lets the heap grow; the address returned *)
Definition handle_brk (req : Z) (ok : bool) (b : Z) (st : state) : option (state * Z) :=
  let k := s_k st in
  let m := mm_regs (s_m st) in
  let '(hs, he) := mm_heap (s_m st) in
  if req <? hs then Some (st, he) else
  check (req mod PAGE =? 0);
  if req =? he then Some (st, req) else
  do g <- im_get m hs;
  if he <? req then
    do (k, base) <-
      match g with
      | None =>
          check (hs =? he);
          let k := shm_alloc req k in
          let k := mmap_into_shadow b hs req HEAP_PROT k in
          Some (mmap_into_plugin hs req HEAP_PROT k, b)
      | Some (_, r) =>
          let k := shm_alloc he k in
          check ok;
          let k := k_mremap hs (he - hs) (req - hs) hs k in
          Some (s_mremap (r_base r) (he - hs) (req - hs) b k, b)
      end;
    do (m, _) <- im_insert m hs req (mkReg base HEAP_PROT false (Some PHeap));
    Some (mkSt k (mkMap m (hs, req)), req)
  else
    check (negb (hs =? req));
    do (_, r) <- g;
    let k := k_mremap hs (he - hs) (req - hs) hs k in
    let k := s_mremap (r_base r) (he - hs) (req - hs) (r_base r) k in
    do (m, _) <- im_clear m req he;
    do k <- shm_dealloc req he k;
    Some (mkSt k (mkMap m (hs, req)), req).

(* memory_mapper.rs:906-1010 *)
Definition protect1 (p : prot) (km : kern * imap region) (mu : mutation region) : option (kern * imap region) :=
  let '(k, m) := km in
  let put_back (k : kern) (m : imap region) (s e : Z) (r : region) :=
    do (m, muts) <- im_insert m s e r;
    check (no_muts muts);
    Some (k, m) in
  match mu with
  | ModifiedBegin (s, e) ns =>
      do (_, r) <- im_get1 m ns;
      let r' := with_prot p r in
      if r_base r =? 0 then put_back k m s ns r' else
      do m <- im_set m ns (with_base (r_base r + (ns - s)) r);
      put_back (s_mprotect (r_base r') (ns - s) p k) m s ns r'
  | ModifiedEnd (s, e) ne =>
      do ((xs, xe), r) <- im_get1 m (ne - 1);
      let r' := with_prot p r in
      if r_base r' =? 0 then put_back k m ne e r' else
      let r' := with_base (r_base r' + (xe - xs)) r' in
      put_back (s_mprotect (r_base r') (e - ne) p k) m ne e r'
  | Split _ (ls, le) (rs, re) =>
      do (_, r) <- im_get1 m rs;
      let r' := with_prot p r in
      if r_base r' =? 0 then put_back k m le rs r' else
      let r' := with_base (r_base r' + (le - ls)) r' in
      do m <- im_set m rs (with_base (r_base r + ((le - ls) + (rs - le))) r);
      put_back (s_mprotect (r_base r') (rs - le) p k) m le rs r'
  | Removed (s, e) r =>
      let r' := with_prot p r in
      if r_base r' =? 0 then put_back k m s e r' else
      put_back (s_mprotect (r_base r') (e - s) p k) m s e r'
  end.
Fixpoint protect_all (p : prot) (km : kern * imap region) (l : list (mutation region)) : option (kern * imap region) :=
  match l with [] => Some km | mu :: r => do km' <- protect1 p km mu; protect_all p km' r end.
(** The kernel's answer to mprotect(2): success, or an error after it changed the protections up to
    some address. *)
Inductive mpans := MpOk | MpErr (upto : Z).
(* memory_mapper.rs:891-1013 *)
Definition handle_mprotect (a size : Z) (p : prot) (ans : mpans) (st : state) : option state :=
  match ans with
  | MpErr h => Some (mkSt (k_mprotect a h p (s_k st)) (s_m st))
  | MpOk =>
      let k := k_mprotect a (a + rup size) p (s_k st) in
      do (m, muts) <- im_clear (mm_regs (s_m st)) a (a + size);
      do (k, m) <- protect_all p (k, m) muts;
      Some (mkSt k (mkMap m (mm_heap (s_m st))))
  end.

(* memory_mapper.rs:341-351: Drop *)
Fixpoint drop_all (k : kern) (l : list (mutation region)) : kern :=
  match l with
  | [] => k
  | Removed (s, e) r :: rest => drop_all (if r_base r =? 0 then k else s_munmap (r_base r) (e - s) k) rest
  | _ :: rest => drop_all k rest
  end.
Definition mapper_drop (st : state) : option kern :=
  do (_, muts) <- im_clear (mm_regs (s_m st)) 0 U64_MAX;
  Some (drop_all (s_k st) muts).

(** * Access by Shadow *)
(* memory_mapper.rs:1017-1058; [Some None]: not mapped *)
Definition get_mapped_ptr (m : imap region) (a n align : Z) : option (option Z) :=
  check (negb (n =? 0));
  if negb (a mod align =? 0) then Some None else
  do g <- im_get m a;
  match g with
  | None => Some None
  | Some ((s, e), r) =>
      if r_base r =? 0 then Some None
      else if negb (inr s e (a + n - 1)) then Some None
      else Some (Some (r_base r + (a - s)))
  end.

(* mod.rs:478-490 (copy_from_ptr, and so read), 333-345 (memory_ref), memory_mapper.rs:1068-1074,
   memory_copier.rs:95-121 *)
Definition copy_from_ptr (a : Z) (n : nat) (align : Z) (st : state) : option (option (list Z)) :=
  match n with
  | O => Some (Some [])
  | _ =>
      do g <- get_mapped_ptr (mm_regs (s_m st)) a (Z.of_nat n) align;
      match g with
      | Some y => do l <- s_read (s_k st) y n; Some (Some l)
      | None =>
          let l := k_read_prefix (s_k st) a n in
          Some (if Nat.eqb (length l) n then Some l else None)
      end
  end.
(* mod.rs:492-507 (copy_prefix_from_ptr), 347-371 (memory_ref_prefix), memory_copier.rs:46-93. The
   kernel fails if not even the first byte can be read. *)
Definition copy_prefix_from_ptr (a : Z) (n : nat) (align : Z) (st : state) : option (option (list Z)) :=
  match n with
  | O => Some (Some [])
  | _ =>
      do g <- get_mapped_ptr (mm_regs (s_m st)) a (Z.of_nat n) align;
      match g with
      | Some y => do l <- s_read (s_k st) y n; Some (Some l)
      | None =>
          let l := k_read_prefix (s_k st) a n in
          Some (match l with [] => None | _ => Some l end)
      end
  end.
(* mod.rs:563-574 (copy_to_ptr, and so write), memory_copier.rs:174-240; [false]: EFAULT. The kernel
   fails if not even the first byte can be written; after a partial write the assertion of 239 fails. *)
Definition copy_to_ptr (a : Z) (l : list Z) (align : Z) (st : state) : option (state * bool) :=
  match l with
  | [] => Some (st, true)
  | _ =>
      do g <- get_mapped_ptr (mm_regs (s_m st)) a (Z.of_nat (length l)) align;
      match g with
      | Some y => do k <- s_write (s_k st) y l; Some (mkSt k (s_m st), true)
      | None =>
          let '(k, n) := k_write_prefix (s_k st) a l in
          if Nat.eqb n 0 then Some (st, false)
          else check (Nat.eqb n (length l)); Some (mkSt k (s_m st), true)
      end
  end.
(* mod.rs:509-528 (copy_str_from_ptr) with CStr::from_bytes_until_nul *)
Fixpoint until_nul (l : list Z) : option (list Z) :=
  match l with
  | [] => None
  | c :: r => if c =? 0 then Some [] else do s <- until_nul r; Some (c :: s)
  end.

(** * Histories *)
(** What can happen, with the kernel's decisions. *)
Inductive op :=
| OMmap (ans : option Z) (len : Z) (p : prot) (src : source) (ty : mtype) (fixed : bool) (b : Z)
| OMunmap (a len : Z) (ok : bool)
| OMremap (old osz nsz : Z) (maymove : bool) (ans : option Z) (b : Z)
| OMprotect (a size : Z) (p : prot) (ans : mpans)
| OBrk (req : Z) (ok : bool) (b : Z)
| OLoad (a : Z)                                (* the process reads its memory *)
| OStore (a v : Z)                             (* the process writes its memory *)
| ORead (a : Z) (n : nat) (align : Z)          (* a system call reads memory of the process *)
| OPrefix (a : Z) (n : nat) (align : Z)        (* a system call reads what can be read *)
| OString (a : Z) (n : nat)                    (* a system call reads a string *)
| OWrite (a : Z) (l : list Z) (align : Z)      (* a system call writes memory of the process *)
| OOther (o off v : Z).                        (* someone else writes to a file or shared memory *)

Inductive result :=
| RAns (a : option Z) | ROk (b : bool) | RByte (v : Z) | RSignal
| RBytes (l : list Z) | RFault | RTooLong | RNone.

Definition step (st : state) (o : op) : option (state * result) :=
  match o with
  | OMmap ans len p src ty _ b => do st' <- do_mmap ans len p src ty b st; Some (st', RAns ans)
  | OMunmap a len ok => do st' <- do_munmap a len ok st; Some (st', ROk ok)
  | OMremap old osz nsz mv ans b => do st' <- handle_mremap old osz nsz mv ans b st; Some (st', RAns ans)
  | OMprotect a size p ans =>
      do st' <- handle_mprotect a size p ans st;
      Some (st', ROk (match ans with MpOk => true | MpErr _ => false end))
  | OBrk req ok b => do (st', r) <- handle_brk req ok b st; Some (st', RAns (Some r))
  | OLoad a => Some (st, match k_load (s_k st) a with Some v => RByte v | None => RSignal end)
  | OStore a v => Some (match k_store (s_k st) a v with Some k => (mkSt k (s_m st), RNone) | None => (st, RSignal) end)
  | ORead a n al => do r <- copy_from_ptr a n al st; Some (st, match r with Some l => RBytes l | None => RFault end)
  | OPrefix a n al => do r <- copy_prefix_from_ptr a n al st; Some (st, match r with Some l => RBytes l | None => RFault end)
  | OString a n =>
      do r <- copy_prefix_from_ptr a n 1 st;
      Some (st, match r with
                | Some l => match until_nul l with Some s => RBytes s | None => RTooLong end
                | None => RFault
                end)
  | OWrite a l al => do (st', r) <- copy_to_ptr a l al st; Some (st', if r then RNone else RFault)
  | OOther o off v =>
      Some (mkSt (set_obj (fun o' x => if (o' =? o) && (x =? off) then v else k_obj (s_k st) o' x) (s_k st)) (s_m st), RNone)
  end.
