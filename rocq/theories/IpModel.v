(** Model of IpAssignment (src/main/network/graph/mod.rs:346-418) and assign_ips
    (src/main/core/sim_config.rs:386-407).
    Addresses are IPv4 addresses as u32 integers (the code's IPv6 case is unimplemented!()). [None] is a
    panic (u32 overflow when the address space is exhausted) or exhausted fuel of a loop; the
    theorems show the latter does not happen. *)
From Verif Require Import Base FMap.

Section Ip.
Context {T : Type}.   (* node ids *)

(* graph/mod.rs:348-353 *)
Record ipassign : Type := mkIp { ip_map : fmap Z T; ip_last : Z }.

(* graph/mod.rs:356-361: 11.0.0.0 *)
Definition ip_new : ipassign := mkIp [] (11 * 16777216).

(* graph/mod.rs:396-417: the inner loop; [fuel] bounds the iterations *)
Fixpoint increment_loop (fuel : nat) (addr_bits increment : Z) : option Z :=
  match fuel with
  | O => None
  | S fuel =>
      let next_addr := addr_bits + increment in
      check (next_addr <=? U32_MAX);
      if (next_addr mod 256 =? 0) || (next_addr mod 256 =? 255)
      then increment_loop fuel addr_bits (increment + 1)
      else Some next_addr
  end.
Definition increment_address (addr : Z) : option Z := increment_loop 3 addr 1.

(* graph/mod.rs:364-374 *)
Fixpoint assign_loop (fuel : nat) (a : ipassign) (node : T) : option (ipassign * Z) :=
  match fuel with
  | O => None
  | S fuel =>
      do ip <- increment_address (ip_last a);
      let a := mkIp (ip_map a) ip in
      if mem ip (ip_map a) then assign_loop fuel a node
      else Some (mkIp (put ip node (ip_map a)) (ip_last a), ip)
  end.
Definition ip_assign (a : ipassign) (node : T) : option (ipassign * Z) :=
  assign_loop (S (length (ip_map a))) a node.

(* graph/mod.rs:377-388; [false]: IpPreviouslyAssignedError *)
Definition ip_assign_ip (a : ipassign) (node : T) (ip : Z) : ipassign * bool :=
  if mem ip (ip_map a) then (a, false)
  else (mkIp (put ip node (ip_map a)) (ip_last a), true).

(* graph/mod.rs:391-393 *)
Definition ip_get_node (a : ipassign) (ip : Z) : option T := get ip (ip_map a).

(** A host: node id, configured address *)
Definition hostcfg : Type := T * option Z.

(* sim_config.rs:390-397; the outer option is an error return *)
Fixpoint assign_explicit (a : ipassign) (hosts : list hostcfg) : option ipassign :=
  match hosts with
  | [] => Some a
  | (node, Some ip) :: r =>
      let '(a', ok) := ip_assign_ip a node ip in if ok : bool then assign_explicit a' r else None
  | (_, None) :: r => assign_explicit a r
  end.
(* sim_config.rs:400-404; [None] is a panic *)
Fixpoint assign_auto (a : ipassign) (hosts : list hostcfg) : option (ipassign * list hostcfg) :=
  match hosts with
  | [] => Some (a, [])
  | (node, None) :: r =>
      do (a', ip) <- ip_assign a node;
      do (a'', r') <- assign_auto a' r;
      Some (a'', (node, Some ip) :: r')
  | (node, Some ip) :: r => do (a', r') <- assign_auto a r; Some (a', (node, Some ip) :: r')
  end.
(* sim_config.rs:386-407; [inr] is an error return *)
Definition assign_ips (hosts : list hostcfg) : option ((ipassign * list hostcfg) + unit) :=
  match assign_explicit ip_new hosts with
  | None => Some (inr tt)
  | Some a => do r <- assign_auto a hosts; Some (inl r)
  end.

(** Histories of calls; each returns the address it assigned, or nothing when refused. *)
Inductive ipop := IpAuto (node : T) | IpExplicit (node : T) (ip : Z).
Definition ip_step (a : ipassign) (o : ipop) : option (ipassign * option Z) :=
  match o with
  | IpAuto node => do (a', ip) <- ip_assign a node; Some (a', Some ip)
  | IpExplicit node ip => let '(a', ok) := ip_assign_ip a node ip in Some (a', if ok : bool then Some ip else None)
  end.
Fixpoint ip_run (a : ipassign) (l : list ipop) : option (ipassign * list (option Z)) :=
  match l with
  | [] => Some (a, [])
  | o :: r => do (a1, x) <- ip_step a o; do (a2, xs) <- ip_run a1 r; Some (a2, x :: xs)
  end.
End Ip.
Arguments ipassign : clear implicits.
Arguments ipop : clear implicits.
