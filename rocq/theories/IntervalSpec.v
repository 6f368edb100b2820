(** Specification of interval maps: a partial function on points, and interval subtraction. *)
From Verif Require Import Base IntervalModel.

Section S.
Context {V : Type}.

(** The function denoted by a history. *)
Definition op_range (o : iop V) : Z * Z := match o with IInsert s e _ => (s, e) | IClear s e => (s, e) end.
Definition op_value (o : iop V) : option V := match o with IInsert _ _ v => Some v | IClear _ _ => None end.
Fixpoint value_at (hist : list (iop V)) (x : Z) : option V :=   (* newest first *)
  match hist with
  | [] => None
  | o :: r => if (fst (op_range o) <=? x) && (x <? snd (op_range o)) then op_value o else value_at r x
  end.

Definition op_ok (o : iop V) : Prop := fst (op_range o) < snd (op_range o).

(** Sorted, non-empty, disjoint intervals. *)
Definition intervals_ok (l : list (interval * V)) : Prop :=
  Forall (fun p => fst (fst p) < snd (fst p)) l /\
  StronglySorted (fun p q => snd (fst p) <= fst (fst q)) l.

(** What is left of [b, e) without [s, t). *)
Definition remainder (b e s t : Z) : list interval :=
  (if b <? Z.min e s then [(b, Z.min e s)] else []) ++ (if Z.max b t <? e then [(Z.max b t, e)] else []).

(** How the change to one old interval must be reported. *)
Definition report (s t : Z) (p : interval * V) : list (mutation V) :=
  let '((b, e), v) := p in
  if (e <=? s) || (t <=? b) then []            (* untouched *)
  else match remainder b e s t with
       | [] => [Removed (b, e) v]
       | [(b', e')] => if b' =? b then [ModifiedEnd (b, e) e'] else [ModifiedBegin (b, e) b']
       | r1 :: r2 :: _ => [Split (b, e) r1 r2]
       end.
End S.
