(** Common definitions: 64-bit constants, panics as values, list helpers. *)
From Coq Require Export List ZArith Lia Bool Permutation Sorting.Sorted.
From Coq Require Export ZifyBool ZifyNat ZifyN.
Export ListNotations.
Open Scope Z_scope.


(** u64::MAX and u32::MAX *)
Definition U64_MAX : Z := 18446744073709551615.
Definition U32_MAX : Z := 4294967295.
Definition U16_MAX : Z := 65535.

Definition is_u64 (x : Z) : Prop := 0 <= x <= U64_MAX.
Definition is_u32 (x : Z) : Prop := 0 <= x <= U32_MAX.

(** Rust's checked_* operations on u64: [None] when the result does not fit. *)
Definition u64_checked_add (a b : Z) : option Z :=
  if a + b <=? U64_MAX then Some (a + b) else None.
Definition u64_checked_sub (a b : Z) : option Z :=
  if b <=? a then Some (a - b) else None.
Definition u64_checked_mul (a b : Z) : option Z :=
  if a * b <=? U64_MAX then Some (a * b) else None.
Definition u64_checked_div (a b : Z) : option Z :=
  if b =? 0 then None else Some (a / b).
Definition u64_checked_rem (a b : Z) : option Z :=
  if b =? 0 then None else Some (a mod b).

(** Rust's saturating_* operations on u64. *)
Definition u64_saturating_add (a b : Z) : Z := Z.min (a + b) U64_MAX.
Definition u64_saturating_sub (a b : Z) : Z := Z.max (a - b) 0.
Definition u64_saturating_mul (a b : Z) : Z := Z.min (a * b) U64_MAX.

(** Computations that may panic: [None] is the panic. *)
Definition obind {A B} (x : option A) (f : A -> option B) : option B :=
  match x with Some a => f a | None => None end.
Notation "'do' x <- e ; k" := (obind e (fun x => k))
  (at level 200, x pattern, e at level 100, k at level 200, right associativity).

(** An assertion of the code: panics when false. *)
Definition assert_then {A} (b : bool) (k : option A) : option A :=
  if b then k else None.
Notation "'check' b ; k" := (assert_then b k)
  (at level 200, b at level 100, k at level 200, right associativity).

Lemma obind_some {A B} (a : A) (f : A -> option B) : obind (Some a) f = f a.
Proof. reflexivity. Qed.
Lemma obind_none {A B} (f : A -> option B) : obind None f = None.
Proof. reflexivity. Qed.
Lemma assert_true {A} b (k : option A) : b = true -> assert_then b k = k.
Proof. intros ->. reflexivity. Qed.

(** Reduce monadic binds by rewriting (keeps kernel conversion cheap). *)
Ltac ob := repeat (first [rewrite obind_some | rewrite obind_none]; cbv beta iota).

Ltac ob_in H := repeat (first [rewrite obind_some in H | rewrite obind_none in H]; cbv beta iota in H).

Definition zsum (l : list Z) : Z := fold_right Z.add 0 l.

#[global] Arguments Z.add : simpl never.
#[global] Arguments Z.sub : simpl never.
#[global] Arguments Z.mul : simpl never.
#[global] Arguments Z.div : simpl never.
#[global] Arguments Z.modulo : simpl never.
#[global] Arguments Z.pow : simpl never.
#[global] Arguments Z.min : simpl never.
#[global] Arguments Z.max : simpl never.
#[global] Arguments Z.opp : simpl never.
#[global] Arguments Z.leb : simpl never.
#[global] Arguments Z.ltb : simpl never.
#[global] Arguments Z.eqb : simpl never.
#[global] Arguments Z.of_nat : simpl never.
#[global] Arguments Z.to_nat : simpl never.

Lemma nodup_app_l {A} (l l' : list A) : NoDup (l ++ l') -> NoDup l.
Proof.
  induction l as [|a l IH]; intros H; [constructor|]. inversion H; subst. constructor; auto.
  intros I. apply H2, in_app_iff. now left.
Qed.
Lemma nodup_app_r {A} (l l' : list A) : NoDup (l ++ l') -> NoDup l'.
Proof. induction l as [|a l IH]; intros H; [assumption|]. inversion H; subst; auto. Qed.
