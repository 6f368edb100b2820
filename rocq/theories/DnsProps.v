(** C17: the name service. *)
From Coq Require Import String Ascii.
From Verif Require Import Base FMap DnsModel DnsSpec DnsProofs.

(** A registration is accepted exactly when neither address nor name is reserved or already
    registered; a refused one changes nothing. *)
Theorem C17_accept : forall l db rs id a n db' x,
  dns_run dns_new l = (db, rs) -> dns_register db id a n = (db', x) ->
  (x = None <-> ~ reserved a n /\ ~ In a (map r_addr (accepted l rs)) /\ ~ In n (map r_name (accepted l rs))) /\
  (x <> None -> db' = db).
Proof. exact accept_main. Qed.
Print Assumptions C17_accept.

(** The error names a true reason. *)
Theorem C17_reason : forall l db rs id a n db' e,
  dns_run dns_new l = (db, rs) -> dns_register db id a n = (db', Some e) -> justified (accepted l rs) a n e.
Proof. exact reason_main. Qed.
Print Assumptions C17_reason.

(** Lookups return what was registered, and nothing else. *)
Theorem C17_lookup : forall l db rs, dns_run dns_new l = (db, rs) ->
  (forall n a, name_to_addr db n = Some a <-> exists id, In (mkRec id a n) (accepted l rs)) /\
  (forall a n, addr_to_name db a = Some n <-> exists id, In (mkRec id a n) (accepted l rs)) /\
  (forall a id, addr_to_host_id db a = Some id <-> exists n, In (mkRec id a n) (accepted l rs)).
Proof. exact lookup_main. Qed.
Print Assumptions C17_lookup.

(** Name and address lookups are inverse partial functions. *)
Theorem C17_inverse : forall l db rs, dns_run dns_new l = (db, rs) ->
  forall n a, name_to_addr db n = Some a <-> addr_to_name db a = Some n.
Proof. exact inverse_main. Qed.
Print Assumptions C17_inverse.

(** Reserved names and addresses are never found. *)
Theorem C17_reserved : forall l db rs, dns_run dns_new l = (db, rs) ->
  forall n a, name_to_addr db n = Some a -> ~ reserved a n.
Proof. exact reserved_main. Qed.
Print Assumptions C17_reserved.

(** The hosts file: localhost, then every registered pair once, by increasing address, whatever the
    iteration order of the hash map. *)
Theorem C17_hosts_file : forall l db rs values lines, dns_run dns_new l = (db, rs) ->
  Permutation values (map snd (addr_index db)) -> dns_hosts_file values = Some lines ->
  exists rest, lines = (2130706433, "localhost"%string) :: rest /\
    StronglySorted Z.lt (map fst rest) /\
    (forall a n, In (a, n) rest <-> name_to_addr db n = Some a).
Proof. exact hosts_main. Qed.
Print Assumptions C17_hosts_file.

(** Writing it panics exactly when a registered name contains white space. *)
Theorem C17_hosts_panic : forall l db rs values, dns_run dns_new l = (db, rs) ->
  Permutation values (map snd (addr_index db)) ->
  (dns_hosts_file values = None <-> exists r, In r (accepted l rs) /\ name_has_space (r_name r)).
Proof. exact hosts_panic_main. Qed.
Print Assumptions C17_hosts_panic.

(** The file depends only on the set of accepted registrations, not on their order nor on the
    iteration order. *)
Theorem C17_hosts_deterministic : forall l1 db1 rs1 values1 l2 db2 rs2 values2,
  dns_run dns_new l1 = (db1, rs1) -> dns_run dns_new l2 = (db2, rs2) ->
  Permutation (accepted l1 rs1) (accepted l2 rs2) ->
  Permutation values1 (map snd (addr_index db1)) -> Permutation values2 (map snd (addr_index db2)) ->
  dns_hosts_file values1 = dns_hosts_file values2.
Proof. exact hosts_det_main. Qed.
Print Assumptions C17_hosts_deterministic.

(** Witness: two records accepted, five refused for different reasons. *)
Example C17_history :
  let l := [mkRec 1 184549378 "b"; mkRec 2 184549377 "a"; mkRec 3 184549377 "c"; mkRec 4 184549379 "a";
            mkRec 5 2130706434 "d"; mkRec 6 184549380 "LocalHost"; mkRec 7 3758096385 "e"]%string in
  let '(db, rs) := dns_run dns_new l in
  rs = [None; None; Some (AddrExists 184549377); Some (NameExists "a"); Some (LoopbackAddrInvalid 2130706434);
        Some (NameInvalid "LocalHost"); Some (MulticastAddrInvalid 3758096385)]%string /\
  dns_hosts_file (map snd (addr_index db)) = Some [(2130706433, "localhost"); (184549377, "a"); (184549378, "b")]%string.
Proof. vm_compute. split; reflexivity. Qed.
Example C17_space :
  let '(db, _) := dns_run dns_new [mkRec 1 184549378 "a b"]%string in
  dns_hosts_file (map snd (addr_index db)) = None.
Proof. vm_compute. reflexivity. Qed.
