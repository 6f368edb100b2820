(** What passing a block to another process relies on. *)
From Verif Require Import Base ShmModel ShmSpec ShmSerModel.

(** The part of a history that the allocating process runs. *)
Definition main_ops (ops : list dop) : list shop :=
  flat_map (fun op => match op with DMain op => [op] | _ => [] end) ops.
(** The addresses mmap answers in the receiving process. *)
Definition view_answers (ops : list dop) : list Z :=
  flat_map (fun op => match op with DSend _ v => [v] | _ => [] end) ops.
Definition views_ok (ops : list dop) : Prop :=
  Forall (fun v => 0 < v) (view_answers ops) /\
  ForallOrdPairs (fun v w => apart v CHUNK_NBYTES w CHUNK_NBYTES) (view_answers ops).

(** The names of the files: text without a zero byte, in a 256-byte buffer; no name is used
    twice (the file is created with O_EXCL, a second use aborts). *)
Definition file_names (o : oracle) (ops : list shop) : list (list Z) :=
  o_name o :: flat_map (fun op => match op with SMalloc _ _ o => [o_name o] | _ => [] end) ops.
Definition is_name (b : list Z) : Prop :=
  exists t, (length t <= 254)%nat /\ ~ In 0 t /\ b = t ++ repeat 0 (256 - length t).
Definition names_ok (o : oracle) (ops : list shop) : Prop :=
  Forall is_name (file_names o ops) /\ NoDup (file_names o ops).
