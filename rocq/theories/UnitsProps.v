(** C57: quantities in the configuration. *)
From Verif Require Import Base UnitsModel UnitsSpec UnitsProofs.
From Coq Require Import String.
Local Open Scope list_scope.
Local Open Scope Z_scope.

(** A string is read as [v] units of magnitude [m] exactly if it means that: times in nanoseconds, times in seconds,
    sizes in bytes, rates in bits per second. *)
Theorem C57_time : forall s v m, (exists p, from_str Tim time_sfx s = Some (v, p) /\ p_mag Tim p = m) <-> means time_names s v m.
Proof. exact (meaning Tim time_sfx time_names time_names_ok). Qed.
Print Assumptions C57_time.
Theorem C57_time_upper : forall s v m, (exists p, from_str TimUpper time_sfx s = Some (v, p) /\ p_mag TimUpper p = m) <-> means time_upper_names s v m.
Proof. exact (meaning TimUpper time_sfx time_upper_names time_upper_names_ok). Qed.
Print Assumptions C57_time_upper.
Theorem C57_bytes : forall s v m, (exists p, from_str SiUpper bytes_sfx s = Some (v, p) /\ p_mag SiUpper p = m) <-> means bytes_names s v m.
Proof. exact (meaning SiUpper bytes_sfx bytes_names bytes_names_ok). Qed.
Print Assumptions C57_bytes.
Theorem C57_bits : forall s v m, (exists p, from_str SiUpper bits_sfx s = Some (v, p) /\ p_mag SiUpper p = m) <-> means bits_names s v m.
Proof. exact (meaning SiUpper bits_sfx bits_names bits_names_ok). Qed.
Print Assumptions C57_bits.
(** The same with small prefixes. *)
Theorem C57_small : forall s v m, ((exists p, from_str Si bytes_sfx s = Some (v, p) /\ p_mag Si p = m) <-> means small_bytes_names s v m) /\
  ((exists p, from_str Si bits_sfx s = Some (v, p) /\ p_mag Si p = m) <-> means small_bits_names s v m).
Proof. exact (fun s v m => conj (meaning Si bytes_sfx small_bytes_names small_bytes_names_ok s v m) (meaning Si bits_sfx small_bits_names small_bits_names_ok s v m)). Qed.
Print Assumptions C57_small.
Example C57_read_ex : from_str Tim time_sfx (txt "+10  min ") = Some (10, TMin) /\ from_str Tim time_sfx (txt "10.5 ms") = None /\
  from_str SiUpper bytes_sfx (txt "16 megabytes") = Some (16, UMega) /\ from_str SiUpper bits_sfx (txt "1 Gibit") = Some (1, UGibi) /\ from_str SiUpper bits_sfx (txt "1 mbit") = None.
Proof. vm_compute. repeat split; reflexivity. Qed.
Example C57_means_ex : means time_names (txt "+10  min ") 10 60000000000.
Proof. apply C57_time. exists TMin. vm_compute. split; reflexivity. Qed.

(** No string means two quantities. *)
Theorem C57_unambiguous : forall s v m v' m', 
  (means time_names s v m -> means time_names s v' m' -> v = v' /\ m = m') /\
  (means time_upper_names s v m -> means time_upper_names s v' m' -> v = v' /\ m = m') /\
  (means bytes_names s v m -> means bytes_names s v' m' -> v = v' /\ m = m') /\
  (means bits_names s v m -> means bits_names s v' m' -> v = v' /\ m = m').
Proof.
  exact (fun s v m v' m' => conj (unambiguous _ _ _ s v m v' m' time_names_ok) (conj (unambiguous _ _ _ s v m v' m' time_upper_names_ok)
    (conj (unambiguous _ _ _ s v m v' m' bytes_names_ok) (unambiguous _ _ _ s v m v' m' bits_names_ok)))).
Qed.
Print Assumptions C57_unambiguous.

(** What is written is read back. *)
Theorem C57_round_trip : forall v, 0 <= v <= U64_MAX ->
  (forall p, from_str Tim time_sfx (display Tim time_sfx v p) = Some (v, p)) /\
  (forall p, from_str TimUpper time_sfx (display TimUpper time_sfx v p) = Some (v, p)) /\
  (forall p, from_str SiUpper bytes_sfx (display SiUpper bytes_sfx v p) = Some (v, p)) /\
  (forall p, from_str SiUpper bits_sfx (display SiUpper bits_sfx v p) = Some (v, p)) /\
  (forall p, from_str Si bytes_sfx (display Si bytes_sfx v p) = Some (v, p) /\ from_str Si bits_sfx (display Si bits_sfx v p) = Some (v, p)).
Proof.
  exact (fun v V => conj (fun p => display_time v p V) (conj (fun p => display_time_upper v p V) (conj (fun p => display_bytes v p V)
    (conj (fun p => display_bits v p V) (fun p => display_si v p V))))).
Qed.
Print Assumptions C57_round_trip.
Example C57_round_trip_ex : display Tim time_sfx 250 TMicro = txt "250 " ++ [956] ++ txt "s" /\ display SiUpper bits_sfx U64_MAX UKibi = txt "18446744073709551615 Kibit".
Proof. vm_compute. split; reflexivity. Qed.

(** A conversion keeps the quantity, and is refused only if the new unit does not divide the old one or the value does
    not fit. *)
Theorem C57_convert : forall (T : Type) (P : pfx T) v p to r,
  In (existT pfx T P) [existT pfx tim Tim; existT pfx timu TimUpper; existT pfx siu SiUpper; existT pfx si Si] -> convert P v p to = Some r ->
  match r with
  | CVal v' p' => p' = to /\ v' * p_mag P to = v * p_mag P p /\ (p_mag P to | p_mag P p) /\ v' <= U64_MAX
  | CPrecision => ~ (p_mag P to | p_mag P p)
  | CBounds => (p_mag P to | p_mag P p) /\ U64_MAX * p_mag P to < v * p_mag P p
  end.
Proof. exact convert_all. Qed.
Print Assumptions C57_convert.
Example C57_convert_ex : convert Tim 70 TMin TSec = Some (CVal 4200 TSec) /\ convert Tim 70 TMin THour = Some CPrecision /\
  convert SiUpper U64_MAX UKilo UBase = Some CBounds /\ convert SiUpper 1024 UKilo UKibi = Some CPrecision.
Proof. vm_compute. repeat split; reflexivity. Qed.

(** With the units of a configuration a conversion never panics. *)
Theorem C57_convert_total : (forall v p to, convert Tim v p to <> None) /\ (forall v p to, convert TimUpper v p to <> None) /\ (forall v p to, convert SiUpper v p to <> None).
Proof. exact (conj tim_some (conj timu_some siu_some)). Qed.
Print Assumptions C57_convert_total.
(** Refuted for the units with small prefixes, which no option uses: one tebibyte in nanobytes panics instead of being
    out of bounds. *)
Theorem C57_convert_total_refuted : exists v p to, 0 <= v <= U64_MAX /\ convert Si v p to = None.
Proof. exists 1, Tebi, Nano. split; [unfold U64_MAX; lia|vm_compute; reflexivity]. Qed.
Print Assumptions C57_convert_total_refuted.

(** What the simulation uses is the quantity that was written, in nanoseconds, seconds, bytes and bits per second. *)
Theorem C57_used : forall s n,
  (config Tim time_sfx nanos s = Some (Some n) <-> exists v m, means time_names s v m /\ n = v * m /\ n <= U64_MAX) /\
  (config TimUpper time_sfx seconds s = Some (Some n) <-> exists v m, means time_upper_names s v m /\ n = v * m /\ n <= U64_MAX) /\
  (config SiUpper bytes_sfx base_units s = Some (Some n) <-> exists v m, means bytes_names s v m /\ n = v * m /\ n <= U64_MAX) /\
  (config SiUpper bits_sfx base_units s = Some (Some n) <-> exists v m, means bits_names s v m /\ n = v * m /\ n <= U64_MAX).
Proof. exact (fun s n => conj (config_time s n) (conj (config_time_upper s n) (conj (config_bytes s n) (config_bits s n)))). Qed.
Print Assumptions C57_used.
Example C57_used_ex : config Tim time_sfx nanos (txt "10 min") = Some (Some 600000000000) /\ config SiUpper bits_sfx base_units (txt "1 Gbit") = Some (Some 1000000000) /\
  config SiUpper bytes_sfx base_units (txt "64 KiB") = Some (Some 65536) /\ config Tim time_sfx nanos (txt "10 parsecs") = None.
Proof. vm_compute. repeat split; reflexivity. Qed.

(** Refuted: every quantity that the configuration accepts can be used.  A time of more than 584 years is accepted when
    the file is read, and panics when it is used. *)
Theorem C57_accepted_refuted : exists s q, from_str Tim time_sfx s = Some q /\ config Tim time_sfx nanos s = Some None.
Proof. exists (txt "6000000 hours"), (6000000, THour). vm_compute. split; reflexivity. Qed.
Print Assumptions C57_accepted_refuted.

(** A number without unit, in the file or as a string, is in the default unit. *)
Theorem C57_plain : forall n, (from_int Tim n = Some (n, TSec) <-> 0 <= n <= U64_MAX) /\ (from_int TimUpper n = Some (n, USec) <-> 0 <= n <= U64_MAX) /\
  (from_int SiUpper n = Some (n, UBase) <-> 0 <= n <= U64_MAX) /\ (~ 0 <= n <= U64_MAX -> from_int Tim n = None /\ from_int TimUpper n = None /\ from_int SiUpper n = None).
Proof. exact from_int_all. Qed.
Print Assumptions C57_plain.
Example C57_plain_ex : from_int SiUpper 1000 = Some (1000, UBase) /\ from_int Tim (-1) = None.
Proof. vm_compute. split; reflexivity. Qed.
