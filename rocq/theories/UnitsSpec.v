(** The quantities of a configuration file: which strings there are and what they mean. *)
From Verif Require Import Base UnitsModel.
From Coq Require Import String.
Local Open Scope list_scope.
Local Open Scope Z_scope.

(** The number that a sequence of digits denotes. *)
Definition number (d : text) : Z := fold_left (fun n c => 10 * n + (c - 48)) d 0.

(** White space, as Unicode has it. *)
Definition spaces : list Z :=
  [9; 10; 11; 12; 13; 32; 133; 160; 5760; 8192; 8193; 8194; 8195; 8196; 8197; 8198; 8199; 8200; 8201; 8202; 8232; 8233; 8239; 8287; 12288].

(** [s] is a number, white space, the name of a unit, and perhaps white space: [q] is the
    number of base units.  A line feed can only stand before the name. *)
Definition means (names : list (text * Z)) (s : text) (v m : Z) : Prop :=
  exists sign d w name w', s = sign ++ d ++ w ++ name ++ w' /\ (sign = [] \/ sign = [43]) /\
    d <> [] /\ (forall c, In c d -> 48 <= c <= 57) /\ v = number d /\ v <= U64_MAX /\
    (forall c, In c w -> In c spaces) /\ (forall c, In c w' -> In c spaces /\ c <> 10) /\ In (name, m) names.

(** Names of units. *)
Definition all_of (m : Z) (l : list text) : list (text * Z) := map (fun n => (n, m)) l.

(** Durations in nanoseconds. *)
Definition time_names : list (text * Z) :=
  all_of 1 [txt "ns"; txt "nanosecond"; txt "nanoseconds"] ++
  all_of 1000 [txt "us"; 956 :: txt "s"; txt "microsecond"; txt "microseconds"] ++
  all_of 1000000 [txt "ms"; txt "millisecond"; txt "milliseconds"] ++
  all_of 1000000000 [txt ""; txt "s"; txt "sec"; txt "secs"; txt "second"; txt "seconds"] ++
  all_of 60000000000 [txt "m"; txt "min"; txt "mins"; txt "minute"; txt "minutes"] ++
  all_of 3600000000000 [txt "h"; txt "hr"; txt "hrs"; txt "hour"; txt "hours"].
(** Durations in seconds. *)
Definition time_upper_names : list (text * Z) :=
  all_of 1 [txt ""; txt "s"; txt "sec"; txt "secs"; txt "second"; txt "seconds"] ++
  all_of 60 [txt "m"; txt "min"; txt "mins"; txt "minute"; txt "minutes"] ++
  all_of 3600 [txt "h"; txt "hr"; txt "hrs"; txt "hour"; txt "hours"].

Definition magnitudes : list (text * Z) :=
  [(txt "", 1); (txt "K", 1000); (txt "kilo", 1000); (txt "Ki", 1024); (txt "kibi", 1024);
   (txt "M", 1000000); (txt "mega", 1000000); (txt "Mi", 1048576); (txt "mebi", 1048576);
   (txt "G", 1000000000); (txt "giga", 1000000000); (txt "Gi", 1073741824); (txt "gibi", 1073741824);
   (txt "T", 1000000000000); (txt "tera", 1000000000000); (txt "Ti", 1099511627776); (txt "tebi", 1099511627776)].
Definition with_suffixes (l : list text) : list (text * Z) :=
  flat_map (fun e => map (fun x => (fst e ++ x, snd e)) l) magnitudes.
(** Sizes in bytes, rates in bits per second. *)
Definition bytes_names : list (text * Z) := with_suffixes [txt ""; txt "B"; txt "byte"; txt "bytes"].
Definition bits_names : list (text * Z) := with_suffixes [txt ""; txt "bit"; txt "bits"].

(** Sizes and rates with small prefixes, in billionths of the unit. *)
Definition small_magnitudes : list (text * Z) :=
  [(txt "n", 1); (txt "nano", 1); (txt "u", 1000); ([956], 1000); (txt "micro", 1000); (txt "m", 1000000); (txt "milli", 1000000)].
Definition with_small (l : list text) : list (text * Z) :=
  flat_map (fun e => map (fun x => (fst e ++ x, snd e)) l) (small_magnitudes ++ map (fun e => (fst e, 1000000000 * snd e)) magnitudes).
Definition small_bytes_names : list (text * Z) := with_small [txt ""; txt "B"; txt "byte"; txt "bytes"].
Definition small_bits_names : list (text * Z) := with_small [txt ""; txt "bit"; txt "bits"].
