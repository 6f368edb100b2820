(** Properties C60 and C61: memory of managed processes. *)
From Verif Require Import Base IntervalModel IntervalSpec MemKernel MemModel MemSpec MemStart MemEx MemLaws.

(** Taking over the memory of a process changes nothing of what it sees, but that its stack is there up to its limit. *)
Theorem C60_start : forall k maps brk0 bh bs hs he cs ce, start k maps brk0 bh bs hs he cs ce ->
  exists s, mapper_new maps brk0 bh bs k = Some s /\ mm_heap (s_m s) = (hs, he) /\
    forall x, seen (s_k s) x = if inr (stack_start ce) cs x then Some (RW, Some 0) else seen k x.
Proof. exact start_law. Qed.
Print Assumptions C60_start.

(** Every load, store, system call and answer of the process is that of the process on the kernel without Shadow, for
    all sequences of calls. Missing: calls that are not [supported], see the refuted claims. *)
Theorem C60_transparent_partial : forall k maps brk0 bh bs hs he cs ce s top ops,
  start k maps brk0 bh bs hs he cs ce -> mapper_new maps brk0 bh bs k = Some s -> top <= stack_end ce ->
  runs top s (native_start k maps hs he cs ce) ops -> answers s ops = Some (native_answers (native_start k maps hs he cs ce) ops).
Proof. exact same_law. Qed.
Print Assumptions C60_transparent_partial.

(** So are the contents and permissions of all of its memory afterwards. *)
Theorem C60_contents_partial : forall k maps brk0 bh bs hs he cs ce s top ops,
  start k maps brk0 bh bs hs he cs ce -> mapper_new maps brk0 bh bs k = Some s -> top <= stack_end ce ->
  runs top s (native_start k maps hs he cs ce) ops ->
  exists s', final s ops = Some s' /\ forall x, seen (s_k s') x = seen (n_k (native_final (native_start k maps hs he cs ce) ops)) x.
Proof. exact contents_law. Qed.
Print Assumptions C60_contents_partial.

(** Shadow has mapped exactly the process's memory of the shared file, with the same permissions, and the file holds
    nothing else. *)
Theorem C61_mirrors_partial : forall k maps brk0 bh bs hs he cs ce s top ops,
  start k maps brk0 bh bs hs he cs ce -> mapper_new maps brk0 bh bs k = Some s -> top <= stack_end ce ->
  runs top s (native_start k maps hs he cs ce) ops -> exists s', final s ops = Some s' /\ mirrors (s_k s').
Proof. exact mirrors_law. Qed.
Print Assumptions C61_mirrors_partial.

(** When the mapper is dropped, nothing stays mapped in Shadow, and the process keeps its memory. *)
Theorem C61_released_partial : forall k maps brk0 bh bs hs he cs ce s top ops,
  start k maps brk0 bh bs hs he cs ce -> mapper_new maps brk0 bh bs k = Some s -> top <= stack_end ce ->
  runs top s (native_start k maps hs he cs ce) ops ->
  exists s' k', final s ops = Some s' /\ mapper_drop s' = Some k' /\ k_plug k' = k_plug (s_k s') /\ forall y, k_shad k' y = None.
Proof. exact released_law. Qed.
Print Assumptions C61_released_partial.

(** Two processes that meet the hypotheses; heap and stack are copied. *)
Example C60_start_ex : start kern_q maps_q 0 536870912 BS 65536 69632 16769024 16777216 /\
  option_map (fun s => (k_load (s_k s) 65600, k_load (s_k s) 16770000, k_load (s_k s) 8388608, option_map snd (k_plug (s_k s) 16770000), mm_heap (s_m s))) state_q =
  Some (Some 4, Some 9, Some 0, Some (CShm 16770000), (65536, 69632)).
Proof. split; [exact start_q|]. vm_compute. reflexivity. Qed.
Example C60_run_ex : start kern_p maps_p 65536 8192 BS 65536 65536 16773120 16777216 /\ state_p = Some sp /\ runs (stack_end 16777216) sp native_p quiet /\
  answers sp quiet = Some [RAns (Some A); RBytes [0; 0; 0; 0; 0; 0; 0; 0]; ROk true; RNone; ROk true].
Proof. split; [exact start_p|]. split; [exact state_p_eq|]. split; [exact quiet_run|]. vm_compute. reflexivity. Qed.
Example C60_busy_ex : answers sp busy = Some (native_answers native_p busy) /\ native_answers native_p busy =
  [RAns (Some 69632); RNone; RAns (Some 73728); RByte 77; RNone; RBytes [77; 0; 0; 0]; RAns (Some A); RNone; RBytes [1; 2; 3; 4]; ROk true; RSignal;
   RAns (Some (2 * A)); RNone; RAns (Some (2 * A)); RBytes [0; 0; 0; 0]; RByte 6; RFault;
   ROk true; RSignal; RByte 3; RNone; RByte 3; RNone; RBytes [2; 0]; RByte 1; RAns (Some 69632); RSignal; RByte 77].
Proof. split; vm_compute; reflexivity. Qed.

(** Shadow maps what the process maps, with its protection, and unmaps it. *)
Example C61_ex : option_map (fun s => map (k_shad (s_k s)) [BM; BM + 4096]) (final sp [anon A 8192 RW BM; OMprotect (A + 4096) 4096 RO MpOk]) = Some [Some (RW, A); Some (RO, A + 4096)] /\
  option_map (fun s => (map (k_shad (s_k s)) [BM; BM + 4096; BS], option_map (fun k => k_shad k BS) (mapper_drop s))) (final sp quiet) = Some ([None; None; Some (RW, SS)], Some None).
Proof. split; vm_compute; reflexivity. Qed.

(** * Refuted: calls that the kernel serves, and Shadow not *)
(** Memory that was mapped anew is zero: not if the old length was not a number of pages. *)
Theorem C60_zeroed_refuted : exists ops, allowed sp native_p ops /\ answers sp ops <> Some (native_answers native_p ops) /\ answers sp ops <> None.
Proof. exists stale. split; [exact stale_run|]. split; vm_compute; discriminate. Qed.
Print Assumptions C60_zeroed_refuted.

(** Shadow survives each call the process may make. It does not survive
    - mprotect of an empty range,
    - a system call that reads memory without permission to read (the kernel: EFAULT),
    - a system call that writes memory without permission to write (the kernel: EFAULT),
    - a system call that reads memory unmapped by munmap with a length that is not a number of pages,
    - a system call that writes memory made writable by an mprotect that failed at a later page,
    - brk to an address that is not that of a page,
    - brk back to the start of the heap,
    - a system call that writes memory of which only the first part is mapped (the kernel: EFAULT),
    - mremap of a part of a mapping,
    - mremap of memory without permission to write to another address. *)
Definition fatal (ops : list op) : Prop := allowed sp native_p ops /\ answers sp ops = None.
Theorem C60_mprotect_empty_refuted : exists a p, fatal [OMprotect a 0 p MpOk].
Proof. exists A, RO. split; [exact mprotect_zero_run|reflexivity]. Qed.
Print Assumptions C60_mprotect_empty_refuted.
Theorem C60_unreadable_refuted : exists a len b, fatal [anon a len NO b; ORead a 8 1].
Proof. exists A, 8192, BM. split; [exact read_none_run|vm_compute; reflexivity]. Qed.
Print Assumptions C60_unreadable_refuted.
Theorem C60_unwritable_refuted : exists a len b, fatal [anon a len RO b; OWrite a [1; 2] 1].
Proof. exists A, 8192, BM. split; [exact write_ro_run|vm_compute; reflexivity]. Qed.
Print Assumptions C60_unwritable_refuted.
Theorem C60_munmap_length_refuted : exists a len b, fatal [anon a len RW b; OMunmap a 10 true; ORead (a + 20) 1 1].
Proof. exists A, 8192, BM. split; [exact munmap_part_run|vm_compute; reflexivity]. Qed.
Print Assumptions C60_munmap_length_refuted.
Theorem C60_mprotect_failed_refuted : exists a len b, fatal [anon a len RO b; OMprotect a (len + 4096) RW (MpErr (a + len)); OWrite a [1; 2] 1].
Proof. exists A, 8192, BM. split; [exact mprotect_part_run|vm_compute; reflexivity]. Qed.
Print Assumptions C60_mprotect_failed_refuted.
Theorem C60_brk_unaligned_refuted : exists a b, fatal [OBrk a true b].
Proof. exists 65546, BM. split; [exact brk_part_run|vm_compute; reflexivity]. Qed.
Print Assumptions C60_brk_unaligned_refuted.
Theorem C60_brk_to_start_refuted : exists a b, fatal [OBrk (a + 4096) true b; OBrk a true b].
Proof. exists 65536, BM. split; [exact brk_start_run|vm_compute; reflexivity]. Qed.
Print Assumptions C60_brk_to_start_refuted.
Theorem C60_partly_mapped_refuted : exists a b, fatal [OMmap (Some a) 4096 RW (FileAt 5 0) TShared false b; OWrite (a + 4095) [1; 2] 1].
Proof. exists A, BM. split; [exact write_partial_run|vm_compute; reflexivity]. Qed.
Print Assumptions C60_partly_mapped_refuted.
Theorem C60_mremap_part_refuted : exists a b, fatal [anon a 8192 RW b; OMremap a 4096 8192 true (Some (2 * a)) (2 * b)].
Proof. exists A, BM. split; [exact mremap_part_run|vm_compute; reflexivity]. Qed.
Print Assumptions C60_mremap_part_refuted.
Theorem C60_mremap_readonly_refuted : exists a b, fatal [anon a 8192 RO b; OMremap a 8192 16384 true (Some (2 * a)) (2 * b)].
Proof. exists A, BM. split; [exact mremap_ro_run|vm_compute; reflexivity]. Qed.
Print Assumptions C60_mremap_readonly_refuted.
