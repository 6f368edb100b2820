(** Ordered sets and maps with integer keys, standing for the standard library's BTreeSet and
    BTreeMap: lists kept in strictly increasing order of key, iterated in that order. Lookup,
    membership and removal are those of [FMap]. *)
From Coq Require Import Sorting.Sorted.
From Verif Require Import Base FMap.

(** ** Sets *)
Fixpoint sins (x : Z) (l : list Z) : list Z :=
  match l with
  | [] => [x]
  | y :: r => if x <? y then x :: l else if x =? y then l else y :: sins x r
  end.
Definition sdel (x : Z) (l : list Z) : list Z := filter (fun y => negb (x =? y)) l.
(** [range(m..).next()] *)
Definition first_from (m : Z) (l : list Z) : option Z := find (fun y => m <=? y) l.
(** [iter().next_back()] *)
Fixpoint last_opt {A} (l : list A) : option A :=
  match l with [] => None | [x] => Some x | _ :: r => last_opt r end.

Definition ssorted (l : list Z) : Prop := StronglySorted Z.lt l.

Lemma sins_in x y l : In y (sins x l) <-> y = x \/ In y l.
Proof.
  induction l as [|z l IH]; cbn; [intuition auto|].
  destruct (Z.ltb_spec x z); cbn; [intuition auto|]. destruct (Z.eqb_spec x z) as [->|N]; cbn.
  - intuition auto.
  - rewrite IH. tauto.
Qed.
Lemma sins_sorted x l : ssorted l -> ssorted (sins x l).
Proof.
  intros H. induction H as [|z l S IH F]; cbn; [repeat constructor|].
  destruct (Z.ltb_spec x z) as [L|L].
  - constructor; [now constructor|]. constructor; [exact L|]. eapply Forall_impl; [|exact F]. cbn. lia.
  - destruct (Z.eqb_spec x z) as [->|N]; [now constructor|]. constructor; [exact IH|].
    apply Forall_forall. intros y I. apply sins_in in I as [->|I]; [lia|]. rewrite Forall_forall in F. auto.
Qed.
Lemma sdel_in x y l : In y (sdel x l) <-> In y l /\ y <> x.
Proof.
  unfold sdel. rewrite filter_In. destruct (Z.eqb_spec x y); cbn; intuition congruence.
Qed.
Lemma filter_sorted f l : ssorted l -> ssorted (filter f l).
Proof.
  intros H. induction H as [|z l S IH F]; cbn; [constructor|]. destruct (f z); [|exact IH].
  constructor; [exact IH|]. apply Forall_forall. intros y I. apply filter_In in I as [I _]. rewrite Forall_forall in F. auto.
Qed.
Lemma sdel_sorted x l : ssorted l -> ssorted (sdel x l).
Proof. apply filter_sorted. Qed.
Lemma sdel_len x l : (length (sdel x l) <= length l)%nat.
Proof. unfold sdel. induction l as [|y l IH]; cbn; [lia|]. destruct (x =? y); cbn; lia. Qed.
Lemma sdel_len_in x l : In x l -> (length (sdel x l) < length l)%nat.
Proof.
  pose proof (sdel_len x) as L. unfold sdel in *.
  induction l as [|y l IH]; intros I; [destruct I|]. cbn. destruct (Z.eqb_spec x y) as [->|N]; cbn.
  - specialize (L l). lia.
  - destruct I as [I|I]; [congruence|]. specialize (IH I). lia.
Qed.
Lemma first_from_some m l x : ssorted l -> first_from m l = Some x ->
  In x l /\ m <= x /\ forall y, In y l -> m <= y -> x <= y.
Proof.
  intros H. induction H as [|z l S IH F]; cbn; [discriminate|]. destruct (Z.leb_spec m z) as [L|L].
  - intros [= ->]. split; [auto|]. split; [exact L|]. intros y [->|I] _; [lia|]. rewrite Forall_forall in F. apply F in I. lia.
  - intros E. destruct (IH E) as (I & M & A). split; [auto|]. split; [exact M|]. intros y [->|J] Y; [lia|auto].
Qed.
Lemma first_from_none m l : first_from m l = None -> forall y, In y l -> y < m.
Proof. intros E y I. pose proof (find_none _ _ E y I) as H. cbn in H. apply Z.leb_gt in H. exact H. Qed.
Lemma last_opt_some l x : ssorted l -> last_opt l = Some x -> In x l /\ forall y, In y l -> y <= x.
Proof.
  intros H. induction H as [|z l S IH F]; cbn; [discriminate|]. destruct l as [|w l].
  - intros [= ->]. split; [auto|]. intros y [->|[]]. lia.
  - intros E. destruct (IH E) as [I A]. split; [auto|]. intros y [->|J]; [|auto].
    rewrite Forall_forall in F. specialize (F x I). lia.
Qed.
Lemma last_opt_none {A} (l : list A) : last_opt l = None -> l = [].
Proof. induction l as [|x l IH]; [reflexivity|]. destruct l; [discriminate|]. intros E. specialize (IH E). discriminate. Qed.
Lemma ssorted_nodup l : ssorted l -> NoDup l.
Proof.
  intros H. induction H as [|z l S IH F]; constructor; [|exact IH]. intros I. rewrite Forall_forall in F.
  specialize (F z I). lia.
Qed.

(** ** Maps *)
Section Map.
Context {V : Type}.
Fixpoint bput (k : Z) (v : V) (m : fmap Z V) : fmap Z V :=
  match m with
  | [] => [(k, v)]
  | (k', v') :: r => if k <? k' then (k, v) :: m else if k =? k' then (k, v) :: r else (k', v') :: bput k v r
  end.
Definition bsorted (m : fmap Z V) : Prop := ssorted (keys m).

Lemma get_bput_same k v m : get k (bput k v m) = Some v.
Proof.
  induction m as [|[k' v'] m IH]; cbn; [now rewrite Z.eqb_refl|].
  destruct (Z.ltb_spec k k'); cbn; [now rewrite Z.eqb_refl|]. destruct (Z.eqb_spec k k') as [->|N]; cbn.
  - now rewrite Z.eqb_refl.
  - destruct (Z.eqb_spec k k'); [contradiction|exact IH].
Qed.
Lemma get_bput_other k k' v m : k <> k' -> get k (bput k' v m) = get k m.
Proof.
  intros D. induction m as [|[k2 v2] m IH]; cbn.
  - destruct (Z.eqb_spec k k'); [contradiction|reflexivity].
  - destruct (Z.ltb_spec k' k2); cbn.
    + destruct (Z.eqb_spec k k'); [contradiction|reflexivity].
    + destruct (Z.eqb_spec k' k2) as [<-|N]; cbn.
      * destruct (Z.eqb_spec k k'); [contradiction|reflexivity].
      * destruct (Z.eqb_spec k k2); [reflexivity|exact IH].
Qed.
Lemma get_bput k k' v m : get k (bput k' v m) = if k =? k' then Some v else get k m.
Proof. destruct (Z.eqb_spec k k') as [->|N]; [apply get_bput_same|now apply get_bput_other]. Qed.
Lemma keys_bput k v m : keys (bput k v m) = sins k (keys m).
Proof.
  induction m as [|[k' v'] m IH]; cbn; [reflexivity|]. destruct (k <? k'); [reflexivity|].
  destruct (Z.eqb_spec k k') as [->|N]; cbn; [reflexivity|]. f_equal. exact IH.
Qed.
Lemma bput_sorted k v m : bsorted m -> bsorted (bput k v m).
Proof. unfold bsorted. rewrite keys_bput. apply sins_sorted. Qed.
Lemma keys_del_sdel k (m : fmap Z V) : keys (del k m) = sdel k (keys m).
Proof.
  induction m as [|[k' v'] m IH]; cbn; [reflexivity|]. destruct (k =? k'); cbn; [exact IH|]. now f_equal.
Qed.
Lemma del_sorted k m : bsorted m -> bsorted (del k m).
Proof. unfold bsorted. rewrite keys_del_sdel. apply sdel_sorted. Qed.
Lemma bsorted_nodup m : bsorted m -> NoDup (keys m).
Proof. apply ssorted_nodup. Qed.
End Map.
