(** C31: blocks of the shared-memory allocator never overlap. *)
From Verif Require Import Base FMap ShmModel ShmSpec ShmProofs.

(** Whatever is allocated, written, dropped and freed, no call panics, and every live block has
    exactly the bytes its owner put there: the blocks are independent values. *)
Theorem C31_values : forall debug o ops, kernel_ok o ops -> requests_ok debug ops ->
  exists s, shrun debug ops (shm_new debug o) = Some s /\ forall i, seen s i = value_of (vrun ops) i.
Proof. exact values_kept. Qed.
Print Assumptions C31_values.

(** Every live block is aligned, inside a mapped chunk past its header, as large as its type,
    and overlaps no other live block, no block header and no chunk header. *)
Theorem C31_placement : forall debug o ops s, kernel_ok o ops -> requests_ok debug ops ->
  shrun debug ops (shm_new debug o) = Some s ->
  forall i h, handle_at s i = Some h -> exists x, data_at s i x (h_size h)
    /\ x mod h_align h = 0
    /\ (exists c, In c (answers o ops) /\ c + CHUNK_HDR debug <= x /\ x + h_size h <= c + CHUNK_NBYTES)
    /\ (forall j y n, data_at s j y n -> j <> i -> apart x (h_size h) y n)
    /\ (forall p, In p (keys (m_blocks (fa_mem (sh_alloc s)))) -> apart x (h_size h) p (BLOCK_STRUCT_NBYTES debug))
    /\ (forall c, In c (keys (m_chunks (fa_mem (sh_alloc s)))) -> apart x (h_size h) c (CHUNK_HDR debug)).
Proof. exact placement. Qed.
Print Assumptions C31_placement.

(** Memory is reused only as a whole: two blocks that exist at different times share no byte
    or are the same range of the same size. *)
Theorem C31_reuse : forall debug o ops1 ops2 s1 s2, kernel_ok o (ops1 ++ ops2) -> requests_ok debug (ops1 ++ ops2) ->
  shrun debug ops1 (shm_new debug o) = Some s1 -> shrun debug ops2 s1 = Some s2 ->
  forall i j x n y m, data_at s1 i x n -> data_at s2 j y m -> apart x n y m \/ (x = y /\ n = m).
Proof. exact same_place. Qed.
Print Assumptions C31_reuse.

(** Memory is reused: the block dropped last serves the next request of its size and alignment. *)
Theorem C31_recycled : forall debug o ops val a o' s i x n, kernel_ok o (ops ++ [SMalloc val a o']) ->
  requests_ok debug (ops ++ [SMalloc val a o']) ->
  shrun debug ops (shm_new debug o) = Some s -> data_at s i x n -> n = Z.of_nat (length val) ->
  x mod a = 0 ->
  exists s', shrun debug [SDrop i; SMalloc val a o'] s = Some s' /\ data_at s' (length (sh_handles s)) x n.
Proof. exact recycled. Qed.
Print Assumptions C31_recycled.

(** The memory of a block given to shfree (not dropped) is never used again. *)
Theorem C31_shfree_leaks : forall debug o ops1 ops2 s1 s2 i,
  kernel_ok o (ops1 ++ SFree i :: ops2) -> requests_ok debug (ops1 ++ SFree i :: ops2) ->
  shrun debug ops1 (shm_new debug o) = Some s1 -> shrun debug (SFree i :: ops2) s1 = Some s2 ->
  forall j x n y m, data_at s1 i x n -> data_at s2 j y m -> apart x n y m.
Proof. exact leaked. Qed.
Print Assumptions C31_shfree_leaks.

(** ** A history *)
Definition o0 : oracle := mkOracle 1048576 [48].
Definition ok (k : Z) : oracle := mkOracle (1048576 + k * CHUNK_NBYTES) [48 + k].

(** Three blocks, one written through, one dropped and replaced, one passed to shfree. *)
Definition case_ops : list shop :=
  [SMalloc [1; 2; 3; 4] 4 (ok 1); SMalloc [5; 6] 64 (ok 2); SMalloc [7; 8; 9; 10] 4 (ok 3);
   SWrite 1 1 66; SDrop 0; SMalloc [11; 12; 13; 14] 2 (ok 4); SFree 2; SMalloc [15; 16; 17; 18] 1 (ok 5)].

Lemma case_kernel : kernel_ok o0 case_ops.
Proof.
  split; [repeat constructor|].
  repeat (constructor; [repeat (constructor; [vm_compute; tauto || (left; discriminate)|]); constructor|]). constructor.
Qed.
Lemma case_requests debug : requests_ok debug case_ops.
Proof.
  unfold requests_ok, case_ops.
  repeat (constructor; [first [exact I | split; [discriminate|split; [|destruct debug; vm_compute; discriminate]]]|]); [..|constructor].
  - exists 2. split; [discriminate|reflexivity].
  - exists 6. split; [discriminate|reflexivity].
  - exists 2. split; [discriminate|reflexivity].
  - exists 1. split; [discriminate|reflexivity].
  - exists 0. split; [discriminate|reflexivity].
Qed.

Definition seen_all (r : option shm) : list (option (list Z)) :=
  match r with Some s => map (seen s) [0; 1; 2; 3; 4]%nat | None => [] end.
Definition place (r : option shm) (i : nat) : option Z :=
  match r with
  | Some s => match handle_at s i with
              | Some h => get_ref0 (fa_mem (sh_alloc s)) (h_block h) (h_size h)
              | None => None
              end
  | None => None
  end.

Example C31_case : kernel_ok o0 case_ops /\ requests_ok true case_ops
  /\ seen_all (shrun true case_ops (shm_new true o0))
     = [None; Some [5; 66]; None; Some [11; 12; 13; 14]; Some [15; 16; 17; 18]]
  /\ place (shrun true (firstn 3 case_ops) (shm_new true o0)) 0 = place (shrun true case_ops (shm_new true o0)) 3.
Proof. split; [exact case_kernel|]. split; [apply case_requests|]. split; vm_compute; reflexivity. Qed.

(** ** What does not hold *)

(** "A block given back with shfree can be allocated again": the same history with a drop and
    with shfree; only the drop gives the memory back. *)
Theorem C31_shfree_refuted : exists o val a o1 o2 debug,
  let alloc1 := [SMalloc val a o1] in
  kernel_ok o (alloc1 ++ [SFree 0; SMalloc val a o2]) /\ requests_ok debug (alloc1 ++ [SFree 0; SMalloc val a o2]) /\
  place (shrun debug alloc1 (shm_new debug o)) 0 <> None /\
  place (shrun debug (alloc1 ++ [SDrop 0; SMalloc val a o2]) (shm_new debug o)) 1
    = place (shrun debug alloc1 (shm_new debug o)) 0 /\
  place (shrun debug (alloc1 ++ [SFree 0; SMalloc val a o2]) (shm_new debug o)) 1
    <> place (shrun debug alloc1 (shm_new debug o)) 0.
Proof.
  exists o0, [1; 2; 3; 4], 4, (ok 1), (ok 2), false. cbv zeta. split; [|split; [|split; [|split]]].
  - split; [repeat constructor|].
    repeat (constructor; [repeat (constructor; [vm_compute; tauto || (left; discriminate)|]); constructor|]). constructor.
  - repeat (constructor; [first [exact I | split; [discriminate|split; [exists 2; split; [discriminate|reflexivity]|vm_compute; discriminate]]]|]).
    constructor.
  - vm_compute. discriminate.
  - vm_compute. reflexivity.
  - vm_compute. discriminate.
Qed.
Print Assumptions C31_shfree_refuted.

(** "Every value can be allocated": a zero-sized value panics, and a value that does not fit in
    a chunk dereferences null. *)
Theorem C31_zero_sized_refuted : exists o o1, kernel_ok o [SMalloc [] 1 o1] /\
  forall debug, shrun debug [SMalloc [] 1 o1] (shm_new debug o) = None.
Proof.
  exists o0, (ok 1). split.
  - split; [repeat constructor|].
    repeat (constructor; [repeat (constructor; [vm_compute; tauto || (left; discriminate)|]); constructor|]). constructor.
  - intros [|]; vm_compute; reflexivity.
Qed.
Print Assumptions C31_zero_sized_refuted.

Theorem C31_oversize_refuted : exists o o1 val, kernel_ok o [SMalloc val 1 o1] /\
  forall debug, shrun debug [SMalloc val 1 o1] (shm_new debug o) = None.
Proof.
  exists o0, (ok 1), (repeat 0 (Z.to_nat (CHUNK_NBYTES + 1))). split.
  - split; [repeat constructor|].
    repeat (constructor; [repeat (constructor; [vm_compute; tauto || (left; discriminate)|]); constructor|]). constructor.
  - intros debug. apply too_big_run; [split; reflexivity|split; reflexivity|left; vm_compute; discriminate|reflexivity|].
    rewrite repeat_length, chunk_nbytes. lia.
Qed.
Print Assumptions C31_oversize_refuted.
