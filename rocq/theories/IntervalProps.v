(** C19: interval maps. *)
From Verif Require Import Base IntervalModel IntervalSpec IntervalProofs.

(** A point maps to the value of the last insertion covering it, unless cleared since; the entry
    returned is the stored interval around the point. *)
Theorem C19_lookup : forall (V : Type) (ops : list (iop V)) m x, im_run im_new ops = Some m ->
  exists r, im_get m x = Some r /\ option_map snd r = value_at (rev ops) x /\
  (forall p, r = Some p <-> In p (im_iter m) /\ fst (fst p) <= x < snd (fst p)).
Proof. exact @lookup_main. Qed.
Print Assumptions C19_lookup.

(** Stored intervals are non-empty, sorted and disjoint. *)
Theorem C19_intervals : forall (V : Type) (ops : list (iop V)) m, im_run im_new ops = Some m ->
  intervals_ok (im_iter m) /\ im_keys m = map fst (im_iter m).
Proof. exact @intervals_main. Qed.
Print Assumptions C19_intervals.

(** The only panic is the assertion that a range is not empty. *)
Theorem C19_total : forall (V : Type) (ops : list (iop V)), Forall op_ok ops <-> exists m, im_run im_new ops = Some m.
Proof. exact @total_main. Qed.
Print Assumptions C19_total.

(** One operation: the report lists, in order, exactly the old intervals it changed and how; the new
    intervals are what is left of the old ones, plus the inserted one. *)
Theorem C19_change : forall (V : Type) (ops : list (iop V)) m o m' muts,
  im_run im_new ops = Some m -> im_step m o = Some (m', muts) ->
  let s := fst (op_range o) in let e := snd (op_range o) in
  muts = flat_map (report s e) (im_iter m) /\
  forall p, In p (im_iter m') <->
    (exists v, op_value o = Some v /\ p = ((s, e), v)) \/
    (exists q, In q (im_iter m) /\ In (fst p) (remainder (fst (fst q)) (snd (fst q)) s e) /\ snd p = snd q).
Proof. exact @change_main. Qed.
Print Assumptions C19_change.

(** Iteration from a point: the intervals containing it or after it, in order. *)
Theorem C19_iter_from : forall (V : Type) (ops : list (iop V)) m x, im_run im_new ops = Some m ->
  im_iter_from m x = Some (filter (fun p => x <? snd (fst p)) (im_iter m)).
Proof. exact @iter_from_main. Qed.
Print Assumptions C19_iter_from.

Definition demo : list (iop nat) :=
  [IInsert 0 10 1%nat; IInsert 20 30 2%nat; IInsert 12 15 3%nat; IInsert 4 6 4%nat; IClear 8 22].
Example C19_case : exists m, im_run im_new demo = Some m /\
  im_iter m = [((0, 4), 1%nat); ((4, 6), 4%nat); ((6, 8), 1%nat); ((22, 30), 2%nat)] /\
  value_at (rev demo) 7 = Some 1%nat /\
  (exists m', im_step m (IInsert 3 25 5%nat) = Some (m',
     [ModifiedEnd (0, 4) 3; Removed (4, 6) 4%nat; Removed (6, 8) 1%nat; ModifiedBegin (22, 30) 25])).
Proof. eexists. split; [vm_compute; reflexivity|]. split; [vm_compute; reflexivity|]. split; [reflexivity|]. eexists. vm_compute. reflexivity. Qed.
