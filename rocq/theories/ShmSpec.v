(** What a user of the shared-memory allocator relies on. *)
From Verif Require Import Base ShmModel.

(** Two byte ranges [a, a+n) and [b, b+m) share no byte. *)
Definition apart (a n b m : Z) : Prop := a + n <= b \/ b + m <= a.

(** ** What is assumed of the environment *)

(** The addresses mmap would answer, first for the initial chunk and then for each request. *)
Definition answers (o : oracle) (ops : list shop) : list Z :=
  o_base o :: flat_map (fun op => match op with SMalloc _ _ o => [o_base o] | _ => [] end) ops.

(** mmap answers page-aligned addresses of ranges that overlap no earlier one. *)
Definition kernel_ok (o : oracle) (ops : list shop) : Prop :=
  Forall (fun b => 0 < b /\ b mod 4096 = 0) (answers o ops) /\
  ForallOrdPairs (fun b c => apart b CHUNK_NBYTES c CHUNK_NBYTES) (answers o ops).

(** Requests for at least one byte, with a power of two as alignment, that fit in one chunk
    next to the headers. *)
Definition request_ok (debug : bool) (val : list Z) (a : Z) : Prop :=
  val <> [] /\ (exists k, 0 <= k /\ a = 2 ^ k) /\
  CHUNK_HDR debug + BLOCK_STRUCT_NBYTES debug + (a - 1) + Z.of_nat (length val) <= CHUNK_NBYTES.
Definition requests_ok (debug : bool) (ops : list shop) : Prop :=
  Forall (fun op => match op with SMalloc val a _ => request_ok debug val a | _ => True end) ops.

(** ** Blocks are independent values: the meaning of a history without any memory *)
Definition values := list (option (list Z)).

Fixpoint set_nth {A} (k : nat) (v : A) (l : list A) : list A :=
  match l, k with
  | [], _ => []
  | _ :: l, O => v :: l
  | x :: l, S k => x :: set_nth k v l
  end.

Definition vstep (vs : values) (op : shop) : values :=
  match op with
  | SMalloc val _ _ => vs ++ [Some val]
  | SDrop i | SFree i => set_nth i None vs
  | SWrite i k v =>
    match nth_error vs i with
    | Some (Some val) =>
      if (0 <=? k) && (k <? Z.of_nat (length val)) then set_nth i (Some (set_nth (Z.to_nat k) v val)) vs
      else vs
    | _ => vs
    end
  end.
Definition vrun (ops : list shop) : values := fold_left vstep ops [].

(** What the owner of handle [i] sees: nothing once the handle is gone. *)
Definition value_of (vs : values) (i : nat) : option (list Z) :=
  match nth_error vs i with Some v => v | None => None end.
Definition seen (s : shm) (i : nat) : option (list Z) :=
  match handle_at s i with Some h => deref h s | None => None end.

(** Where the value of a live handle is: address and size. *)
Definition data_at (s : shm) (i : nat) (x n : Z) : Prop :=
  exists h, handle_at s i = Some h /\ n = h_size h /\
            get_ref0 (fa_mem (sh_alloc s)) (h_block h) (h_size h) = Some x.
