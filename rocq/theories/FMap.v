(** Finite maps, standing for the standard library's HashMap and BTreeMap. The list order is not
    meaningful; iteration orders are arbitrary permutations. *)
From Coq Require Import String.
From Verif Require Import Base.

(** Keys with a boolean equality. *)
Class Eqb (K : Type) : Type := { eqb : K -> K -> bool; eqb_ok : forall a b, reflect (a = b) (eqb a b) }.
#[global] Instance Eqb_Z : Eqb Z := {| eqb := Z.eqb; eqb_ok := Z.eqb_spec |}.
#[global] Instance Eqb_nat : Eqb nat := {| eqb := Nat.eqb; eqb_ok := Nat.eqb_spec |}.
#[global] Instance Eqb_string : Eqb string := {| eqb := String.eqb; eqb_ok := String.eqb_spec |}.
Definition prod_eqb {A B} {EA : Eqb A} {EB : Eqb B} (x y : A * B) : bool :=
  eqb (fst x) (fst y) && eqb (snd x) (snd y).
Lemma prod_eqb_ok {A B} {EA : Eqb A} {EB : Eqb B} (x y : A * B) : reflect (x = y) (prod_eqb x y).
Proof.
  destruct x as [a b], y as [c d]. unfold prod_eqb. cbn.
  destruct (eqb_ok a c) as [->|N]; [|cbn; constructor; congruence].
  destruct (eqb_ok b d) as [->|N]; cbn; constructor; congruence.
Qed.
#[global] Instance Eqb_prod (A B : Type) (EA : Eqb A) (EB : Eqb B) : Eqb (A * B) :=
  {| eqb := prod_eqb; eqb_ok := prod_eqb_ok |}.
Definition option_eqb {A} {EA : Eqb A} (x y : option A) : bool :=
  match x, y with Some a, Some b => eqb a b | None, None => true | _, _ => false end.
Lemma option_eqb_ok {A} {EA : Eqb A} (x y : option A) : reflect (x = y) (option_eqb x y).
Proof.
  destruct x as [a|], y as [b|]; cbn; try (constructor; congruence).
  destruct (eqb_ok a b) as [->|N]; constructor; congruence.
Qed.
#[global] Instance Eqb_option (A : Type) (EA : Eqb A) : Eqb (option A) :=
  {| eqb := option_eqb; eqb_ok := option_eqb_ok |}.

Section FMap.
Context {K V : Type} {EK : Eqb K}.

Definition fmap := list (K * V).

Fixpoint get (k : K) (m : fmap) : option V :=
  match m with
  | [] => None
  | (k', v) :: r => if eqb k k' then Some v else get k r
  end.
Definition del (k : K) (m : fmap) : fmap := filter (fun p => negb (eqb k (fst p))) m.
Definition put (k : K) (v : V) (m : fmap) : fmap := (k, v) :: del k m.
Definition mem (k : K) (m : fmap) : bool := match get k m with Some _ => true | None => false end.
Definition keys (m : fmap) : list K := map fst m.

Lemma get_del_same k m : get k (del k m) = None.
Proof.
  induction m as [|[k' v] m IH]; [reflexivity|]. cbn. destruct (eqb_ok k k') as [E|N]; cbn; [exact IH|].
  destruct (eqb_ok k k'); [contradiction|exact IH].
Qed.
Lemma get_del_other k k' m : k <> k' -> get k (del k' m) = get k m.
Proof.
  intros N. induction m as [|[k2 v] m IH]; [reflexivity|]. cbn. destruct (eqb_ok k' k2) as [E|N2]; cbn.
  - subst k2. destruct (eqb_ok k k'); [contradiction|exact IH].
  - destruct (eqb_ok k k2); [reflexivity|exact IH].
Qed.
Lemma get_put_same k v m : get k (put k v m) = Some v.
Proof. cbn. destruct (eqb_ok k k); [reflexivity|contradiction]. Qed.
Lemma get_put_other k k' v m : k <> k' -> get k (put k' v m) = get k m.
Proof. intros N. cbn. destruct (eqb_ok k k'); [contradiction|]. now apply get_del_other. Qed.
Lemma get_put k k' v m : get k (put k' v m) = if eqb k k' then Some v else get k m.
Proof. destruct (eqb_ok k k') as [->|N]; [apply get_put_same|now apply get_put_other]. Qed.
Lemma get_del k k' m : get k (del k' m) = if eqb k k' then None else get k m.
Proof. destruct (eqb_ok k k') as [->|N]; [apply get_del_same|now apply get_del_other]. Qed.

Lemma del_del k m : del k (del k m) = del k m.
Proof.
  induction m as [|[k' v] m IH]; [reflexivity|]. cbn. destruct (eqb_ok k k') as [E|N]; cbn; [exact IH|].
  destruct (eqb_ok k k'); [contradiction|]. cbn. f_equal. exact IH.
Qed.
Lemma del_put k v m : del k (put k v m) = del k m.
Proof. unfold put. cbn. destruct (eqb_ok k k); [|contradiction]. cbn. apply del_del. Qed.
Lemma put_put k v v' m : put k v (put k v' m) = put k v m.
Proof. unfold put at 1. now rewrite del_put. Qed.

Lemma in_del x k m : In x (del k m) <-> In x m /\ fst x <> k.
Proof.
  unfold del. rewrite filter_In. destruct (eqb_ok k (fst x)) as [E|N]; cbn; intuition congruence.
Qed.
Lemma keys_del k m x : In x (keys (del k m)) <-> In x (keys m) /\ x <> k.
Proof.
  unfold keys. rewrite !in_map_iff. split.
  - intros (y & <- & I). apply in_del in I as [I N]. split; [now exists y|exact N].
  - intros [(y & <- & I) N]. exists y. split; [reflexivity|]. apply in_del. auto.
Qed.
Lemma nodup_del k m : NoDup (keys m) -> NoDup (keys (del k m)).
Proof.
  induction m as [|[k' v] m IH]; intros H; [constructor|]. inversion H as [|? ? N ND]; subst. cbn.
  destruct (eqb_ok k k'); cbn; [auto|]. constructor; [|auto]. intros I. apply N. now apply keys_del in I.
Qed.
Lemma nodup_put k v m : NoDup (keys m) -> NoDup (keys (put k v m)).
Proof. intros H. cbn. constructor; [|now apply nodup_del]. intros I. now apply keys_del in I. Qed.
Lemma get_in k v m : get k m = Some v -> In (k, v) m.
Proof.
  induction m as [|[k' v'] m IH]; [discriminate|]. cbn. destruct (eqb_ok k k') as [->|N]; [intros [= ->]; auto|auto].
Qed.
Lemma in_get k v m : NoDup (keys m) -> In (k, v) m -> get k m = Some v.
Proof.
  induction m as [|[k' v'] m IH]; intros ND I; [destruct I|]. inversion ND as [|? ? N ND']; subst. cbn.
  destruct (eqb_ok k k') as [E|NE]; destruct I as [I|I]; try congruence; auto.
  subst k'. exfalso. apply N. apply in_map_iff. now exists (k, v).
Qed.
Lemma get_none k m : get k m = None <-> ~ In k (keys m).
Proof.
  induction m as [|[k' v'] m IH]; cbn; [tauto|]. destruct (eqb_ok k k') as [->|N].
  - split; [discriminate|]. intros H. exfalso. auto.
  - rewrite IH. intuition congruence.
Qed.
Lemma get_keys k v m : get k m = Some v -> In k (keys m).
Proof. intros H. apply in_map_iff. exists (k, v). split; [reflexivity|]. now apply get_in. Qed.
Lemma keys_get k m : In k (keys m) -> exists v, get k m = Some v.
Proof. intros I. destruct (get k m) as [v|] eqn:E; [now exists v|]. apply get_none in E. contradiction. Qed.
Lemma get_perm k m m' : Permutation m m' -> NoDup (keys m) -> get k m = get k m'.
Proof.
  intros P ND. assert (ND' : NoDup (keys m')) by (eapply Permutation_NoDup; [apply Permutation_map, P|exact ND]).
  destruct (get k m) as [v|] eqn:E.
  - symmetry. apply in_get; [exact ND'|]. eapply Permutation_in; [exact P|]. now apply get_in.
  - symmetry. apply get_none. intros I. apply get_none in E. apply E. eapply Permutation_in; [apply Permutation_sym, Permutation_map, P|exact I].
Qed.
Lemma mem_iff k m : mem k m = true <-> In k (keys m).
Proof.
  unfold mem. destruct (get k m) as [v|] eqn:E.
  - split; [intros _; eapply get_keys; eauto|reflexivity].
  - split; [discriminate|]. apply get_none in E. contradiction.
Qed.
Lemma mem_put k k' v m : mem k (put k' v m) = eqb k k' || mem k m.
Proof. unfold mem. rewrite get_put. destruct (eqb k k'); reflexivity. Qed.
End FMap.
Arguments fmap : clear implicits.
