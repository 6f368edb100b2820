(** Model of the quantities of a configuration file: src/main/utility/units.rs (whole, but
    for [convert_lossy] 44-49 and 371-377, which nothing calls, and the JSON schema), and
    of the conversions made when a configuration is used (src/main/core/configuration.rs:160-208,
    src/main/core/sim_config.rs:99-104, 249-288, src/main/network/graph/mod.rs:330).

    A string is the list of its code points.  [None] is a panic. *)
From Verif Require Import Base.
From Coq Require Import String Ascii.
Local Open Scope list_scope.
Local Open Scope Z_scope.

Definition text : Type := list Z.
Definition txt (s : string) : text := map (fun a => Z.of_nat (nat_of_ascii a)) (list_ascii_of_string s).
Definition text_eqb (a b : text) : bool := if list_eq_dec Z.eq_dec a b then true else false.
(* the Greek letter used in units.rs *)
Definition MU : Z := 956.

(** What the trait [Prefix] asks for (units.rs:29-42), with FromStr and Display. *)
Record pfx (T : Type) := mkPfx {
  p_words : list (text * T); p_show : T -> text; p_mag : T -> Z; p_default : T }.
Arguments mkPfx {T}. Arguments p_words {T}. Arguments p_show {T}. Arguments p_mag {T}. Arguments p_default {T}.

(* a match on strings *)
Fixpoint lookup {T} (l : list (text * T)) (s : text) : option T :=
  match l with
  | [] => None
  | (w, p) :: l => if text_eqb w s then Some p else lookup l s
  end.

(* units.rs:51-67 *)
Inductive si := Nano | Micro | Milli | Base | Kilo | Kibi | Mega | Mebi | Giga | Gibi | Tera | Tebi.
(* units.rs:72-90 *)
Definition si_words : list (text * si) :=
  [(txt "n", Nano); (txt "nano", Nano); (txt "u", Micro); ([MU], Micro); (txt "micro", Micro); (txt "m", Milli); (txt "milli", Milli);
   (txt "K", Kilo); (txt "kilo", Kilo); (txt "Ki", Kibi); (txt "kibi", Kibi); (txt "M", Mega); (txt "mega", Mega); (txt "Mi", Mebi); (txt "mebi", Mebi);
   (txt "G", Giga); (txt "giga", Giga); (txt "Gi", Gibi); (txt "gibi", Gibi); (txt "T", Tera); (txt "tera", Tera); (txt "Ti", Tebi); (txt "tebi", Tebi)].
(* units.rs:94-111 *)
Definition si_show (p : si) : text :=
  match p with
  | Nano => txt "n" | Micro => [MU] | Milli => txt "m" | Kilo => txt "K" | Kibi => txt "Ki" | Mega => txt "M" | Mebi => txt "Mi"
  | Giga => txt "G" | Gibi => txt "Gi" | Tera => txt "T" | Tebi => txt "Ti" | Base => []
  end.
(* units.rs:113-133 *)
Definition si_mag (p : si) : Z :=
  let base := 10 ^ 9 in
  match p with
  | Nano => base / 10 ^ 9 | Micro => base / 10 ^ 6 | Milli => base / 10 ^ 3 | Base => base
  | Kilo => base * 10 ^ 3 | Kibi => base * 2 ^ 10 | Mega => base * 10 ^ 6 | Mebi => base * 2 ^ 20
  | Giga => base * 10 ^ 9 | Gibi => base * 2 ^ 30 | Tera => base * 10 ^ 12 | Tebi => base * 2 ^ 40
  end.
Definition Si : pfx si := mkPfx si_words si_show si_mag Base.

(* units.rs:137-149 *)
Inductive siu := UBase | UKilo | UKibi | UMega | UMebi | UGiga | UGibi | UTera | UTebi.
(* units.rs:151-169 *)
Definition siu_words : list (text * siu) :=
  [(txt "K", UKilo); (txt "kilo", UKilo); (txt "Ki", UKibi); (txt "kibi", UKibi); (txt "M", UMega); (txt "mega", UMega); (txt "Mi", UMebi); (txt "mebi", UMebi);
   (txt "G", UGiga); (txt "giga", UGiga); (txt "Gi", UGibi); (txt "gibi", UGibi); (txt "T", UTera); (txt "tera", UTera); (txt "Ti", UTebi); (txt "tebi", UTebi)].
(* units.rs:171-185 *)
Definition siu_show (p : siu) : text :=
  match p with
  | UKilo => txt "K" | UKibi => txt "Ki" | UMega => txt "M" | UMebi => txt "Mi"
  | UGiga => txt "G" | UGibi => txt "Gi" | UTera => txt "T" | UTebi => txt "Ti" | UBase => []
  end.
(* units.rs:187-204 *)
Definition siu_mag (p : siu) : Z :=
  match p with
  | UBase => 1 | UKilo => 10 ^ 3 | UKibi => 2 ^ 10 | UMega => 10 ^ 6 | UMebi => 2 ^ 20
  | UGiga => 10 ^ 9 | UGibi => 2 ^ 30 | UTera => 10 ^ 12 | UTebi => 2 ^ 40
  end.
Definition SiUpper : pfx siu := mkPfx siu_words siu_show siu_mag UBase.

(* units.rs:209-217 *)
Inductive tim := TNano | TMicro | TMilli | TSec | TMin | THour.
(* units.rs:219-238 *)
Definition tim_words : list (text * tim) :=
  [(txt "ns", TNano); (txt "nanosecond", TNano); (txt "nanoseconds", TNano);
   (txt "us", TMicro); (MU :: txt "s", TMicro); (txt "microsecond", TMicro); (txt "microseconds", TMicro);
   (txt "ms", TMilli); (txt "millisecond", TMilli); (txt "milliseconds", TMilli);
   (txt "s", TSec); (txt "sec", TSec); (txt "secs", TSec); (txt "second", TSec); (txt "seconds", TSec);
   (txt "m", TMin); (txt "min", TMin); (txt "mins", TMin); (txt "minute", TMin); (txt "minutes", TMin);
   (txt "h", THour); (txt "hr", THour); (txt "hrs", THour); (txt "hour", THour); (txt "hours", THour)].
(* units.rs:240-251 *)
Definition tim_show (p : tim) : text :=
  match p with
  | TNano => txt "ns" | TMicro => MU :: txt "s" | TMilli => txt "ms" | TSec => txt "sec" | TMin => txt "min" | THour => txt "hour"
  end.
(* units.rs:253-266 *)
Definition tim_mag (p : tim) : Z :=
  let base := 10 ^ 9 in
  match p with
  | TNano => base / 10 ^ 9 | TMicro => base / 10 ^ 6 | TMilli => base / 10 ^ 3 | TSec => base | TMin => base * 60 | THour => base * 60 * 60
  end.
Definition Tim : pfx tim := mkPfx tim_words tim_show tim_mag TSec.

(* units.rs:271-277 *)
Inductive timu := USec | UMin | UHour.
(* units.rs:279-292 *)
Definition timu_words : list (text * timu) :=
  [(txt "s", USec); (txt "sec", USec); (txt "secs", USec); (txt "second", USec); (txt "seconds", USec);
   (txt "m", UMin); (txt "min", UMin); (txt "mins", UMin); (txt "minute", UMin); (txt "minutes", UMin);
   (txt "h", UHour); (txt "hr", UHour); (txt "hrs", UHour); (txt "hour", UHour); (txt "hours", UHour)].
(* units.rs:294-302 *)
Definition timu_show (p : timu) : text := match p with USec => txt "sec" | UMin => txt "min" | UHour => txt "hour" end.
(* units.rs:304-312 *)
Definition timu_mag (p : timu) : Z := match p with USec => 1 | UMin => 60 | UHour => 60 * 60 end.
Definition TimUpper : pfx timu := mkPfx timu_words timu_show timu_mag USec.

(** The suffixes of the three units: units.rs:525, 546, 555. *)
Definition time_sfx : list text := [[]].
Definition bytes_sfx : list text := [txt "B"; txt "byte"; txt "bytes"].
Definition bits_sfx : list text := [txt "bit"; txt "bits"].

(** * Reading *)

(* char::is_whitespace and the class \s of the regex crate: the Unicode property White_Space *)
Definition white (c : Z) : bool :=
  (9 <=? c) && (c <=? 13) || (c =? 32) || (c =? 133) || (c =? 160) || (c =? 5760) ||
  (8192 <=? c) && (c <=? 8202) || (c =? 8232) || (c =? 8233) || (c =? 8239) || (c =? 8287) || (c =? 12288).
Definition digit (c : Z) : bool := (48 <=? c) && (c <=? 57).

(* the longest prefix of characters in a class, and the rest *)
Fixpoint span (f : Z -> bool) (s : text) : text * text :=
  match s with
  | c :: s' => if f c then let (a, b) := span f s' in (c :: a, b) else ([], s)
  | [] => ([], [])
  end.
(* trim of the end; the group never starts with white space *)
Definition trim_end (s : text) : text := rev (snd (span white (rev s))).
Definition trim (s : text) : text := trim_end (snd (span white s)).

(* The regex of units.rs:393: a group of an optional sign and any number of digits and
   dots, white space, and a group of all characters but line feeds up to the end.  It is
   greedy, and giving back characters cannot make it match, because only a line feed after
   the white space prevents a match. *)
Definition sign_of (s : text) : text * text :=
  match s with
  | c :: s' => if (c =? 43) || (c =? 45) then ([c], s') else ([], s)
  | [] => ([], [])
  end.
Definition captures (s : text) : option (text * text) :=
  let (sign, s1) := sign_of s in
  let (num, s2) := span (fun c => digit c || (c =? 46)) s1 in
  let s3 := snd (span white s2) in
  if existsb (Z.eqb 10) s3 then None else Some (sign ++ num, s3).

(* str::strip_suffix *)
Definition strip_suffix (s suf : text) : option text :=
  let n := (List.length s - List.length suf)%nat in
  if (Nat.leb (List.length suf) (List.length s)) && text_eqb (skipn n s) suf then Some (firstn n s) else None.

(* the first suffix that is there, units.rs:401-408 *)
Fixpoint strip_first (sfx : list text) (s : text) : text :=
  match sfx with
  | [] => s
  | f :: sfx => match strip_suffix s f with Some x => x | None => strip_first sfx s end
  end.

(* u64::from_str: an optional plus sign and at least one digit *)
Fixpoint digits (acc : Z) (s : text) : option Z :=
  match s with
  | [] => Some acc
  | c :: s => if digit c then let n := acc * 10 + (c - 48) in
                              if n <=? U64_MAX then digits n s else None
              else None
  end.
Definition parse_u64 (s : text) : option Z :=
  let s := match s with c :: s' => if c =? 43 then s' else s | [] => s end in
  match s with [] => None | _ => digits 0 s end.

(* units.rs:401-413 *)
Definition parse_unit {T} (P : pfx T) (sfx : list text) (u : text) : option T :=
  let p := strip_first sfx u in
  match p with [] => Some (p_default P) | _ => lookup (p_words P) p end.

(* from_str, units.rs:392-419; an error is [None] *)
Definition from_str {T} (P : pfx T) (sfx : list text) (s : text) : option (Z * T) :=
  match captures s with
  | None => None
  | Some (value, unit) =>
      match parse_unit P sfx (trim unit) with
      | None => None
      | Some p => match parse_u64 (trim value) with None => None | Some v => Some (v, p) end
      end
  end.

(* visit_fn!, units.rs:315-326 and 451-456: a number in the file *)
Definition from_int {T} (P : pfx T) (n : Z) : option (Z * T) :=
  if (0 <=? n) && (n <=? U64_MAX) then Some (n, p_default P) else None.

(** * Writing *)
Fixpoint dec (fuel : nat) (n : Z) : text :=
  match fuel with
  | O => []
  | S k => if n <? 10 then [48 + n] else dec k (n / 10) ++ [48 + n mod 10]
  end.
(* Display, units.rs:380-384, also used to serialize *)
Definition display {T} (P : pfx T) (sfx : list text) (v : Z) (p : T) : text :=
  dec 20 v ++ [32] ++ p_show P p ++ hd [] sfx.

(** * Converting *)
Inductive cres (T : Type) := CVal (v : Z) (p : T) | CPrecision | CBounds.
Arguments CVal {T}. Arguments CPrecision {T}. Arguments CBounds {T}.

(* conversion_factor and convert, units.rs:34-42 and 358-369; the factor is a u128 and
   must fit a u64 *)
Definition convert {T} (P : pfx T) (v : Z) (p to : T) : option (cres T) :=
  let from_mag := p_mag P p in
  let to_mag := p_mag P to in
  if negb (from_mag mod to_mag =? 0) then Some CPrecision
  else
    let factor := from_mag / to_mag in
    check factor <=? U64_MAX;
    Some (match u64_checked_mul v factor with Some x => CVal x to | None => CBounds end).

(** What the configuration does with a quantity: convert(...).unwrap().value() *)
Definition unwrap {T} (x : option (cres T)) : option Z := match x with Some (CVal v _) => Some v | _ => None end.
(* configuration.rs:160-175, 203-207, graph/mod.rs:330, units.rs:527-531 *)
Definition nanos (q : Z * tim) : option Z := unwrap (convert Tim (fst q) (snd q) TNano).
(* units.rs:533-537 *)
Definition seconds (q : Z * timu) : option Z := unwrap (convert TimUpper (fst q) (snd q) USec).
(* sim_config.rs:99-104, 249-255, 263-288 *)
Definition base_units (q : Z * siu) : option Z := unwrap (convert SiUpper (fst q) (snd q) UBase).
(** A string of the configuration file that is read and later used: it can be refused, or
    its use can panic. *)
Definition config {T} (P : pfx T) (sfx : list text) (f : Z * T -> option Z) (s : text) : option (option Z) :=
  match from_str P sfx s with None => None | Some q => Some (f q) end.
