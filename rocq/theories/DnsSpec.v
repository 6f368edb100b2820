(** Specification of the name service, over the list of accepted registrations. *)
From Coq Require Import String Ascii.
From Verif Require Import Base DnsModel.

Definition accepted (l : list record) (rs : list (option regerror)) : list record :=
  flat_map (fun '(r, x) => match x with None => [r] | Some _ => [] end) (combine l rs).

(** "localhost" in any mixture of cases *)
Definition same_letter (a b : ascii) : Prop :=
  a = b \/ (97 <= nat_of_ascii b <= 122)%nat /\ (nat_of_ascii a + 32 = nat_of_ascii b)%nat.
Fixpoint spells (s t : string) : Prop :=
  match s, t with
  | EmptyString, EmptyString => True
  | String a s, String b t => same_letter a b /\ spells s t
  | _, _ => False
  end.

(** 0.0.0.0, 127.0.0.0/8, 224.0.0.0/4, 255.255.255.255 and "localhost" *)
Definition reserved (addr : Z) (name : string) : Prop :=
  addr = 0 \/ 2130706432 <= addr < 2147483648 \/ 3758096384 <= addr < 4026531840 \/ addr = 4294967295 \/
  spells name "localhost".

Definition name_has_space (s : string) : Prop :=
  exists i c, String.get i s = Some c /\ In (nat_of_ascii c) [9; 10; 12; 13; 32]%nat.

(** What an error says about the refused registration, given the accepted ones. *)
Definition justified (acc : list record) (addr : Z) (name : string) (e : regerror) : Prop :=
  match e with
  | UnspecifiedAddrInvalid => addr = 0
  | LoopbackAddrInvalid a => a = addr /\ 2130706432 <= addr < 2147483648
  | MulticastAddrInvalid a => a = addr /\ 3758096384 <= addr < 4026531840
  | BroadcastAddrInvalid => addr = 4294967295
  | NameInvalid n => n = name /\ spells name "localhost"
  | AddrExists a => a = addr /\ In addr (map r_addr acc)
  | NameExists n => n = name /\ In name (map r_name acc)
  end.
