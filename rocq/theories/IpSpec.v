(** Specification of address assignment, over the list of results of a history. *)
From Verif Require Import Base IpModel.

(** Addresses in use after a history with results [rs]. *)
Definition taken (rs : list (option Z)) : list Z := flat_map (fun r => match r with Some a => [a] | None => [] end) rs.
(** Assignments (address, node) of a history. *)
Definition node_of {T} (o : ipop T) : T := match o with IpAuto n => n | IpExplicit n _ => n end.
Definition assigned {T} (ops : list (ipop T)) (rs : list (option Z)) : list (Z * T) :=
  flat_map (fun '(o, r) => match r with Some a => [(a, node_of o)] | None => [] end) (combine ops rs).

(** Usable for automatic assignment: does not end in .0 or .255. *)
Definition usable (a : Z) : Prop := a mod 256 <> 0 /\ a mod 256 <> 255.
(** The highest automatic address handed out (11.0.0.0 before the first). *)
Fixpoint last_auto {T} (ops : list (ipop T)) (rs : list (option Z)) : Z :=   (* oldest first *)
  match ops, rs with
  | o :: ops, r :: rs =>
      Z.max (match o, r with IpAuto _, Some a => a | _, _ => 184549376 end) (last_auto ops rs)
  | _, _ => 184549376
  end.
