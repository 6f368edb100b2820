(** Model of src/main/network/dns.rs (all but error texts and the in-memory file).
    Addresses are u32 integers, names are byte strings. The HashMap iteration order is arbitrary. *)
From Coq Require Import String Ascii.
From Verif Require Import Base FMap.

(* dns.rs:24-29 *)
Record record : Type := mkRec { r_id : Z; r_addr : Z; r_name : string }.
(* dns.rs:16-22 *)
Record dnsdb : Type := mkDb { name_index : fmap string record; addr_index : fmap Z record }.

(* dns.rs:31-40 *)
Inductive regerror :=
| BroadcastAddrInvalid | LoopbackAddrInvalid (a : Z) | MulticastAddrInvalid (a : Z)
| UnspecifiedAddrInvalid | NameInvalid (n : string) | AddrExists (a : Z) | NameExists (n : string).

(** std::net::Ipv4Addr *)
Definition first_octet (a : Z) : Z := a / 16777216.
Definition is_unspecified (a : Z) : bool := a =? 0.
Definition is_loopback (a : Z) : bool := first_octet a =? 127.
Definition is_broadcast (a : Z) : bool := a =? U32_MAX.
Definition is_multicast (a : Z) : bool := (224 <=? first_octet a) && (first_octet a <=? 239).
(** str::eq_ignore_ascii_case *)
Definition ascii_lower (c : ascii) : ascii :=
  let n := nat_of_ascii c in
  if (Nat.leb 65 n && Nat.leb n 90)%bool then ascii_of_nat (n + 32) else c.
Fixpoint lower (s : string) : string :=
  match s with EmptyString => EmptyString | String c r => String (ascii_lower c) (lower r) end.
Definition eq_ignore_ascii_case (a b : string) : bool := String.eqb (lower a) (lower b).
(** u8::is_ascii_whitespace: space, tab, line feed, form feed, carriage return *)
Definition is_whitespace (c : ascii) : bool :=
  let n := nat_of_ascii c in
  (Nat.eqb n 32 || Nat.eqb n 9 || Nat.eqb n 10 || Nat.eqb n 12 || Nat.eqb n 13)%bool.
Fixpoint any_whitespace (s : string) : bool :=
  match s with EmptyString => false | String c r => (is_whitespace c || any_whitespace r)%bool end.

(* dns.rs:86-93 *)
Definition dns_new : dnsdb := mkDb [] [].

(* dns.rs:95-129 *)
Definition dns_register (db : dnsdb) (id addr : Z) (name : string) : dnsdb * option regerror :=
  if is_unspecified addr then (db, Some UnspecifiedAddrInvalid)
  else if is_loopback addr then (db, Some (LoopbackAddrInvalid addr))
  else if is_broadcast addr then (db, Some BroadcastAddrInvalid)
  else if is_multicast addr then (db, Some (MulticastAddrInvalid addr))
  else if eq_ignore_ascii_case name "localhost" then (db, Some (NameInvalid name))
  else match get addr (addr_index db) with
       | Some _ => (db, Some (AddrExists addr))
       | None =>
           match get name (name_index db) with
           | Some _ => (db, Some (NameExists name))
           | None =>
               let r := mkRec id addr name in
               (mkDb (put name r (name_index db)) (put addr r (addr_index db)), None)
           end
       end.

(* dns.rs:131-157; [values]: addr_index.values() in iteration order; sort_by_key as an insertion sort;
   a line is (address, name). [None]: the assertion on whitespace fails. *)
Fixpoint insert_by_addr (r : record) (l : list record) : list record :=
  match l with
  | [] => [r]
  | x :: l' => if r_addr r <=? r_addr x then r :: l else x :: insert_by_addr r l'
  end.
Definition sort_by_addr (l : list record) : list record := fold_right insert_by_addr [] l.
Fixpoint write_lines (l : list record) : option (list (Z * string)) :=
  match l with
  | [] => Some []
  | r :: l => check (negb (any_whitespace (r_name r))); do ls <- write_lines l; Some ((r_addr r, r_name r) :: ls)
  end.
Definition dns_hosts_file (values : list record) : option (list (Z * string)) :=
  do ls <- write_lines (sort_by_addr values); Some ((127 * 16777216 + 1, "localhost"%string) :: ls).

(* dns.rs:175-192 *)
Definition addr_to_host_id (db : dnsdb) (addr : Z) : option Z := option_map r_id (get addr (addr_index db)).
Definition addr_to_name (db : dnsdb) (addr : Z) : option string := option_map r_name (get addr (addr_index db)).
Definition name_to_addr (db : dnsdb) (name : string) : option Z := option_map r_addr (get name (name_index db)).

(** Histories of registrations, with the results. *)
Fixpoint dns_run (db : dnsdb) (l : list record) : dnsdb * list (option regerror) :=
  match l with
  | [] => (db, [])
  | r :: l => let '(db1, x) := dns_register db (r_id r) (r_addr r) (r_name r) in
              let '(db2, xs) := dns_run db1 l in (db2, x :: xs)
  end.
