(** The Linux kernel as far as the memory of a managed process goes. This is the environment of
    src/main/host/memory_manager: not code of the repository, but what that code calls (mmap(2),
    munmap(2), mremap(2), mprotect(2), ftruncate(2), fallocate(2), process_vm_readv(2),
    process_vm_writev(2)), by their manual pages.
    An address space is a function from byte addresses to what is mapped there. Rounding of lengths to
    whole pages is the kernel's. Where the kernel decides (an address, an error), the decision is an
    argument here, and [kernel_allows] in MemSpec.v says which decisions it may make.
    Simplified: permission to execute is not modelled; virtual memory areas are not modelled, so
    whether mremap(2) accepts a range is one of the decisions; there is no limit on mappings; a copy on
    write of a file is a copy at the time of mapping. *)
From Verif Require Import Base.

Definition PAGE : Z := 4096.
(** rounded up to whole pages *)
Definition rup (x : Z) : Z := (x + (PAGE - 1)) / PAGE * PAGE.
Definition inr (s e x : Z) : bool := (s <=? x) && (x <? e).

Record prot := mkProt { p_read : bool; p_write : bool }.
Definition RW : prot := mkProt true true.

(** What is mapped at an address: a byte of the shared memory file of Shadow, a byte of the process's
    own, or a byte of some other file or shared memory, which others may change. *)
Inductive cell := CShm (off : Z) | CPriv (v : Z) | CObj (o off : Z).

Record kern := mkKern {
  k_plug : Z -> option (prot * cell);   (* the process *)
  k_shad : Z -> option (prot * Z);      (* Shadow: the bytes of the shared memory file it has mapped *)
  k_file : Z -> Z;                      (* contents of the shared memory file *)
  k_flen : Z;                           (* its length *)
  k_obj : Z -> Z -> Z }.                (* contents of other files *)

Definition set_plug f k := mkKern f (k_shad k) (k_file k) (k_flen k) (k_obj k).
Definition set_shad f k := mkKern (k_plug k) f (k_file k) (k_flen k) (k_obj k).
Definition set_file f k := mkKern (k_plug k) (k_shad k) f (k_flen k) (k_obj k).
Definition set_flen n k := mkKern (k_plug k) (k_shad k) (k_file k) n (k_obj k).
Definition set_obj f k := mkKern (k_plug k) (k_shad k) (k_file k) (k_flen k) f.

(** Replace a range of a function. *)
Definition over {A} (s e : Z) (g : Z -> A) (f : Z -> A) : Z -> A := fun x => if inr s e x then g x else f x.

(** * Calls made by the process *)
(** What mmap(2) maps. [Anon o]: MAP_ANONYMOUS; if it is shared, the memory is object [o]. *)
Inductive source := Anon (o : Z) | FileAt (o off : Z).
Inductive mtype := TShared | TPrivate | TValidate.   (* MAP_SHARED, MAP_PRIVATE, MAP_SHARED_VALIDATE *)
Definition mapped_cell (k : kern) (src : source) (ty : mtype) (i : Z) : cell :=
  match src, ty with
  | Anon _, TPrivate => CPriv 0
  | Anon o, _ => CObj o i
  | FileAt o off, TPrivate => CPriv (k_obj k o (off + i))
  | FileAt o off, _ => CObj o (off + i)
  end.
Definition k_mmap (a len : Z) (p : prot) (src : source) (ty : mtype) (k : kern) : kern :=
  set_plug (over a (a + rup len) (fun x => Some (p, mapped_cell k src ty (x - a))) (k_plug k)) k.
Definition k_munmap (a len : Z) (k : kern) : kern :=
  set_plug (over a (a + rup len) (fun _ => None) (k_plug k)) k.
(** the memory that a mapping gets when it grows: of a file, the bytes that follow; else zeros *)
Definition grown (c : cell) (d : Z) : cell :=
  match c with CShm off => CShm (off + d) | CPriv _ => CPriv 0 | CObj o off => CObj o (off + d) end.
Definition k_mremap (old osz nsz new : Z) (k : kern) : kern :=
  match k_plug k old with
  | None => k
  | Some (p, c) =>
      let body x := if x - new <? rup osz then k_plug k (x - new + old) else Some (p, grown c (x - new)) in
      set_plug (over new (new + rup nsz) body (over old (old + rup osz) (fun _ => None) (k_plug k))) k
  end.
(** mremap(2) with an old size of zero: the same memory a second time *)
Definition k_mremap_dup (old nsz new : Z) (k : kern) : kern :=
  match k_plug k old with
  | None => k
  | Some (p, c) => set_plug (over new (new + rup nsz) (fun x => Some (p, grown c (x - new))) (k_plug k)) k
  end.
(** protections of [a, e) changed *)
Definition k_mprotect (a e : Z) (p : prot) (k : kern) : kern :=
  set_plug (over a e (fun x => option_map (fun y => (p, snd y)) (k_plug k x)) (k_plug k)) k.

(** * Bytes *)
Definition content (k : kern) (c : cell) : Z :=
  match c with CShm off => k_file k off | CPriv v => v | CObj o off => k_obj k o off end.
(** Bytes of the file in pages beyond its end cannot be accessed (SIGBUS). *)
Definition backed (k : kern) (c : cell) : bool :=
  match c with CShm off => off <? rup (k_flen k) | _ => true end.
Definition k_load (k : kern) (a : Z) : option Z :=
  match k_plug k a with
  | Some (p, c) => if p_read p && backed k c then Some (content k c) else None
  | None => None
  end.
Definition put (k : kern) (a : Z) (p : prot) (c : cell) (v : Z) : kern :=
  match c with
  | CShm off => set_file (over off (off + 1) (fun _ => v) (k_file k)) k
  | CPriv _ => set_plug (over a (a + 1) (fun _ => Some (p, CPriv v)) (k_plug k)) k
  | CObj o off => set_obj (fun o' x => if (o' =? o) && (x =? off) then v else k_obj k o' x) k
  end.
Definition k_store (k : kern) (a v : Z) : option kern :=
  match k_plug k a with
  | Some (p, c) => if p_write p && backed k c then Some (put k a p c v) else None
  | None => None
  end.

(** process_vm_readv(2): as much of [a, a+n) as can be read *)
Fixpoint k_read_prefix (k : kern) (a : Z) (n : nat) : list Z :=
  match n with
  | O => []
  | S m => match k_load k a with Some v => v :: k_read_prefix k (a + 1) m | None => [] end
  end.
(** process_vm_writev(2): as much as can be written; the number of bytes written *)
Fixpoint k_write_prefix (k : kern) (a : Z) (l : list Z) : kern * nat :=
  match l with
  | [] => (k, O)
  | v :: r => match k_store k a v with
              | Some k' => let '(k2, n) := k_write_prefix k' (a + 1) r in (k2, S n)
              | None => (k, O)
              end
  end.

(** * Calls made by Shadow on its own address space and on the shared memory file *)
Definition s_mmap (b s len : Z) (p : prot) (k : kern) : kern :=
  set_shad (over b (b + rup len) (fun y => Some (p, s + (y - b))) (k_shad k)) k.
(** fails (and the code only logs it) if the address is not that of a page *)
Definition s_munmap (b len : Z) (k : kern) : kern :=
  if b mod PAGE =? 0 then set_shad (over b (b + rup len) (fun _ => None) (k_shad k)) k else k.
Definition s_mprotect (b len : Z) (p : prot) (k : kern) : kern :=
  if b mod PAGE =? 0
  then set_shad (over b (b + rup len) (fun y => option_map (fun z => (p, snd z)) (k_shad k y)) (k_shad k)) k else k.
Definition s_mremap (b osz nsz nb : Z) (k : kern) : kern :=
  match k_shad k b with
  | None => k
  | Some (p, off) =>
      let body y := if y - nb <? rup osz then k_shad k (y - nb + b) else Some (p, off + (y - nb)) in
      set_shad (over nb (nb + rup nsz) body (over b (b + rup osz) (fun _ => None) (k_shad k))) k
  end.
(** ftruncate(2), to a greater length *)
Definition f_extend (n : Z) (k : kern) : kern := set_flen n k.
(** fallocate(2) with FALLOC_FL_PUNCH_HOLE *)
Definition f_punch (s e : Z) (k : kern) : kern := set_file (over s e (fun _ => 0) (k_file k)) k.

(** Shadow reads or writes its own memory: [None] is a fault, which ends the simulation. *)
Definition s_load (k : kern) (y : Z) : option Z :=
  match k_shad k y with
  | Some (p, off) => if p_read p && (off <? rup (k_flen k)) then Some (k_file k off) else None
  | None => None
  end.
Fixpoint s_read (k : kern) (y : Z) (n : nat) : option (list Z) :=
  match n with
  | O => Some []
  | S m => do v <- s_load k y; do r <- s_read k (y + 1) m; Some (v :: r)
  end.
Definition s_store (k : kern) (y v : Z) : option kern :=
  match k_shad k y with
  | Some (p, off) => if p_write p && (off <? rup (k_flen k)) then Some (set_file (over off (off + 1) (fun _ => v) (k_file k)) k) else None
  | None => None
  end.
Fixpoint s_write (k : kern) (y : Z) (l : list Z) : option kern :=
  match l with
  | [] => Some k
  | v :: r => do k' <- s_store k y v; s_write k' (y + 1) r
  end.
