(** C15: address assignment. *)
From Verif Require Import Base FMap IpModel IpSpec IpProofs.

(** No two assignments of any history return the same address. *)
Theorem C15_unique : forall (T : Type) (ops : list (ipop T)) a rs,
  ip_run ip_new ops = Some (a, rs) -> NoDup (taken rs).
Proof. exact @ip_unique. Qed.
Print Assumptions C15_unique.

(** Asking for an address is refused, without effect, exactly when it is taken. *)
Theorem C15_explicit : forall (T : Type) (ops : list (ipop T)) a rs n ip,
  ip_run ip_new ops = Some (a, rs) ->
  exists a' r, ip_step a (IpExplicit n ip) = Some (a', r) /\
    (In ip (taken rs) -> r = None /\ a' = a) /\ (~ In ip (taken rs) -> r = Some ip).
Proof. exact @ip_explicit. Qed.
Print Assumptions C15_explicit.

(** An automatic assignment returns the first address after the last automatic one that is free and
    does not end in .0 or .255. *)
Theorem C15_auto : forall (T : Type) (ops : list (ipop T)) a rs n a' r,
  ip_run ip_new ops = Some (a, rs) -> ip_step a (IpAuto n) = Some (a', r) ->
  exists ip, r = Some ip /\ ~ In ip (taken rs) /\ usable ip /\
    last_auto ops rs < ip <= 4294967295 /\
    forall z, last_auto ops rs < z < ip -> usable z -> In z (taken rs).
Proof. exact @ip_auto. Qed.
Print Assumptions C15_auto.

(** It fails (panics) exactly when there is no such address left. *)
Theorem C15_auto_panics : forall (T : Type) (ops : list (ipop T)) a rs n,
  ip_run ip_new ops = Some (a, rs) ->
  (ip_step a (IpAuto n) = None <->
   forall z, last_auto ops rs < z <= 4294967295 -> usable z -> In z (taken rs)).
Proof. exact @ip_auto_panics. Qed.
Print Assumptions C15_auto_panics.

(** Lookups return the node an address was assigned to, and nothing for other addresses. *)
Theorem C15_lookup : forall (T : Type) (ops : list (ipop T)) a rs ip n,
  ip_run ip_new ops = Some (a, rs) ->
  (ip_get_node a ip = Some n <-> In (ip, n) (assigned ops rs)).
Proof. exact @ip_lookup. Qed.
Print Assumptions C15_lookup.

(** The hosts of a configuration all get an address, distinct ones; configured addresses are kept;
    lookups agree. *)
Theorem C15_hosts : forall (T : Type) (hosts : list (T * option Z)) a hosts',
  assign_ips hosts = Some (inl (a, hosts')) ->
  Forall2 (fun h h' => fst h = fst h' /\ (snd h <> None -> snd h' = snd h)) hosts hosts' /\
  (forall h, In h hosts' -> snd h <> None) /\
  NoDup (map snd hosts') /\
  (forall n x, In (n, Some x) hosts' <-> ip_get_node a x = Some n).
Proof. exact @hosts_ok. Qed.
Print Assumptions C15_hosts.

(** A configuration is refused exactly when two hosts ask for the same address. *)
Theorem C15_hosts_error : forall (T : Type) (hosts : list (T * option Z)),
  assign_ips hosts = Some (inr tt) <->
  ~ NoDup (flat_map (fun h => match snd h with Some ip => [ip] | None => [] end) hosts).
Proof. exact @hosts_error. Qed.
Print Assumptions C15_hosts_error.

(** It panics for no configuration of at most 4078305280 hosts. *)
Theorem C15_hosts_no_panic : forall (T : Type) (hosts : list (T * option Z)),
  Z.of_nat (length hosts) <= 4078305280 -> assign_ips hosts <> None.
Proof. exact @hosts_no_panic. Qed.
Print Assumptions C15_hosts_no_panic.

(** Witness: 11.0.0.1 is asked for first, so that the automatic assignments skip it; the third is
    asked for twice; 253 automatic assignments step over .255 and .0. *)
Example C15_history :
  ip_run (@ip_new Z) [IpExplicit 7 184549377; IpAuto 8; IpExplicit 9 184549377; IpAuto 9]
  = Some (mkIp [(184549379, 9); (184549378, 8); (184549377, 7)] 184549379,
          [Some 184549377; Some 184549378; None; Some 184549379]).
Proof. vm_compute. reflexivity. Qed.
Example C15_steps_over :
  match ip_run (@ip_new Z) (repeat (IpAuto 1) 255) with
  | Some (_, rs) => skipn 252 rs = [Some 184549629; Some 184549630; Some 184549633]
  | None => False
  end.
Proof. vm_compute. reflexivity. Qed.
Example C15_hosts_case :
  exists a, assign_ips [(1, None); (2, Some 184549377); (3, None)] =
    Some (inl (a, [(1, Some 184549378); (2, Some 184549377); (3, Some 184549379)])).
Proof. eexists. vm_compute. reflexivity. Qed.
