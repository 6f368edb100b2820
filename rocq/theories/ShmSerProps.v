(** C37: a shared-memory block can be passed to another process as text. *)
From Verif Require Import Base FMap ShmModel ShmSpec ShmProofs ShmSerModel ShmSerSpec ShmSerProofs.

(** Block [i] is sent as text after any history, the receiving process turns the text into an
    alias, and both carry on (more allocations, writes, frees, and more blocks sent).  Nothing
    panics, and as long as the owner keeps the block the alias shows the bytes it has now. *)
Theorem C37_alias : forall debug o ops1 i v ops2 s1 d1,
  let ops := ops1 ++ DSend i v :: ops2 in
  kernel_ok o (main_ops ops) -> requests_ok debug (main_ops ops) -> names_ok o (main_ops ops) -> views_ok ops ->
  drun debug ops1 (shm_new debug o, deser_new) = Some (s1, d1) ->
  forall h, handle_at s1 i = Some h ->
  exists d q, send debug s1 d1 i v = Some (d, Some q) /\
  exists s2 d2, drun debug ops2 (s1, d) = Some (s2, d2) /\
    (handle_at s2 i = Some h -> exists val, value_of (vrun (main_ops ops)) i = Some val /\
       alias_deref (fa_mem (sh_alloc s2)) d2 q (h_size h) = Some val).
Proof. exact alias_follows. Qed.
Print Assumptions C37_alias.

(** No history of allocations and sends panics. *)
Theorem C37_no_panic : forall debug o ops,
  kernel_ok o (main_ops ops) -> requests_ok debug (main_ops ops) -> names_ok o (main_ops ops) -> views_ok ops ->
  exists s d, drun debug ops (shm_new debug o, deser_new) = Some (s, d).
Proof. exact sends_run. Qed.
Print Assumptions C37_no_panic.

(** The text form of a block is read back as the same name and offset. *)
Theorem C37_text : forall e, is_name (se_name e) -> - ISIZE_MAX - 1 <= se_offset e <= ISIZE_MAX ->
  exists t, to_text e = Some t /\ from_text t = Some (Some e).
Proof. exact text_round_trip. Qed.
Print Assumptions C37_text.

(** The file names made from the clock and the process id are names as assumed above. *)
Theorem C37_file_name : forall sec nsec pid,
  - ISIZE_MAX - 1 <= sec <= ISIZE_MAX -> - ISIZE_MAX - 1 <= nsec <= ISIZE_MAX -> - ISIZE_MAX - 1 <= pid <= ISIZE_MAX ->
  exists b, format_shmem_name sec nsec pid = Some b /\ is_name b.
Proof. exact format_name_ok. Qed.
Print Assumptions C37_file_name.

(** ** A history *)
Definition name_k (k : Z) : list Z := match format_shmem_name 1700000000 k 4321 with Some b => b | None => [] end.
Definition orc (k : Z) : oracle := mkOracle (1048576 + k * CHUNK_NBYTES) (name_k k).
Definition before : list dop := [DMain (SMalloc [1; 2; 3; 4] 4 (orc 1)); DMain (SMalloc [5; 6] 64 (orc 2)); DSend 0 4096].
Definition after : list dop :=
  [DMain (SWrite 1 0 77); DMain (SDrop 0); DMain (SMalloc [9; 9; 9; 9] 4 (orc 3)); DSend 2 (4096 + 2 * CHUNK_NBYTES); DMain (SWrite 1 1 78)].

Definition names_k : list (list Z) := map name_k [0; 1; 2; 3].
Lemma case_names : names_ok (orc 0) (main_ops (before ++ DSend 1 (4096 + CHUNK_NBYTES) :: after)).
Proof.
  change (Forall is_name names_k /\ NoDup names_k). split.
  - repeat (constructor; [|idtac]); [..|constructor];
      match goal with |- is_name (name_k ?k) => destruct (format_name_ok 1700000000 k 4321) as (b & E & N); [split; discriminate..|];
        unfold name_k; rewrite E; exact N end.
  - repeat (constructor; [intros H; repeat (destruct H as [H|H]; [vm_compute in H; discriminate|]); exact H|]). constructor.
Qed.
Lemma case_kernel : kernel_ok (orc 0) (main_ops (before ++ DSend 1 (4096 + CHUNK_NBYTES) :: after)).
Proof.
  split; [repeat constructor|].
  repeat (constructor; [repeat (constructor; [vm_compute; tauto || (left; discriminate)|]); constructor|]). constructor.
Qed.
Lemma case_requests debug : requests_ok debug (main_ops (before ++ DSend 1 (4096 + CHUNK_NBYTES) :: after)).
Proof.
  unfold requests_ok. cbn [main_ops before after app flat_map].
  repeat (constructor; [first [exact I | split; [discriminate|split; [|destruct debug; vm_compute; discriminate]]]|]); [..|constructor].
  - exists 2. split; [discriminate|reflexivity].
  - exists 6. split; [discriminate|reflexivity].
  - exists 2. split; [discriminate|reflexivity].
Qed.
Lemma case_views : views_ok (before ++ DSend 1 (4096 + CHUNK_NBYTES) :: after).
Proof.
  split.
  - repeat constructor.
  - repeat (constructor; [repeat (constructor; [vm_compute; tauto || (left; discriminate)|]); constructor|]). constructor.
Qed.

Definition outcome : option (option (list Z)) :=
  match drun true before (shm_new true (orc 0), deser_new) with
  | Some (s1, d1) =>
    match send true s1 d1 1 (4096 + CHUNK_NBYTES) with
    | Some (d, Some q) =>
      match drun true after (s1, d) with
      | Some (s2, d2) => Some (alias_deref (fa_mem (sh_alloc s2)) d2 q 2)
      | None => None
      end
    | _ => None
    end
  | None => None
  end.
(** The alias follows the writes of the owner. *)
Example C37_case : outcome = Some (Some [77; 78]).
Proof. vm_compute. reflexivity. Qed.

(** Text whose number is malformed ("x;") panics instead of giving the error. *)
Theorem C37_malformed_refuted : exists t, from_text t = None.
Proof. exists [120; SEMI]. reflexivity. Qed.
Print Assumptions C37_malformed_refuted.
