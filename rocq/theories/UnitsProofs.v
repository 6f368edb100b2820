(** Proofs about the quantities of a configuration. *)
From Verif Require Import Base UnitsModel UnitsSpec.
From Coq Require Import String.
Local Open Scope list_scope.
Local Open Scope Z_scope.

Lemma text_eqb_eq a b : text_eqb a b = true <-> a = b.
Proof. unfold text_eqb. destruct (list_eq_dec Z.eq_dec a b); split; auto; discriminate. Qed.

(** * Spans *)
Definition stops (f : Z -> bool) (b : text) : Prop := match b with [] => True | c :: _ => f c = false end.
Lemma span_ok f : forall s a b, span f s = (a, b) -> s = a ++ b /\ (forall c, In c a -> f c = true) /\ stops f b.
Proof.
  induction s as [|c s IH]; intros a b; cbn [span].
  - intros [= <- <-]. split; [reflexivity|]. split; [intros c []|exact I].
  - destruct (f c) eqn:F.
    + destruct (span f s) as [a' b'] eqn:E. intros [= <- <-]. destruct (IH _ _ eq_refl) as (-> & A & B). split; [reflexivity|]. split; [|exact B].
      intros x [<-|X]; auto.
    + intros [= <- <-]. split; [reflexivity|]. split; [intros x []|exact F].
Qed.
Lemma span_app f a b : (forall c, In c a -> f c = true) -> stops f b -> span f (a ++ b) = (a, b).
Proof.
  intros A B. induction a as [|c a IH]; cbn [app span].
  - destruct b as [|c b]; [reflexivity|]. cbn [span]. cbn in B. now rewrite B.
  - rewrite (A c (or_introl eq_refl)), IH; [reflexivity|]. intros x X. apply A. now right.
Qed.
Lemma rev_in {A} (x : A) l : In x (rev l) <-> In x l. Proof. symmetry. apply in_rev. Qed.

Lemma trim_end_ok s : exists w, s = trim_end s ++ w /\ (forall c, In c w -> white c = true) /\ stops white (rev (trim_end s)).
Proof.
  unfold trim_end. destruct (span white (rev s)) as [a b] eqn:E. destruct (span_ok _ _ _ _ E) as (S & A & B). cbn [snd].
  exists (rev a). rewrite rev_involutive. split; [|split; [|exact B]].
  - rewrite <- rev_app_distr, <- S, rev_involutive. reflexivity.
  - intros c C. apply A. now apply rev_in.
Qed.
Lemma trim_end_app s w : (forall c, In c w -> white c = true) -> stops white (rev s) -> trim_end (s ++ w) = s.
Proof.
  intros A B. unfold trim_end. rewrite rev_app_distr, span_app; [cbn [snd]; apply rev_involutive| |exact B]. intros c C. apply A. now apply rev_in.
Qed.
Lemma span_none f s : stops f s -> span f s = ([], s).
Proof. intros B. apply (span_app f [] s); [intros c []|exact B]. Qed.

(** * Numbers *)
Lemma digits_ok : forall d acc v, 0 <= acc -> digits acc d = Some v ->
  (forall c, In c d -> 48 <= c <= 57) /\ v = fold_left (fun n c => 10 * n + (c - 48)) d acc /\ (d <> [] -> v <= U64_MAX).
Proof.
  induction d as [|c d IH]; intros acc v A; cbn [digits].
  - intros [= <-]. split; [intros c []|]. split; [reflexivity|]. intros X. contradiction.
  - unfold digit. destruct ((48 <=? c) && (c <=? 57)) eqn:D; [|discriminate]. destruct (Z.leb_spec (acc * 10 + (c - 48)) U64_MAX) as [L|]; [|discriminate].
    intros E. assert (A1 : 0 <= acc * 10 + (c - 48)) by lia. destruct (IH _ _ A1 E) as (X & Y & Z). split; [intros x [<-|I]; [lia|auto]|]. cbn [fold_left]. replace (10 * acc + (c - 48)) with (acc * 10 + (c - 48)) by lia.
    split; [exact Y|]. intros _. destruct d; [cbn in E; injection E as <-; exact L|]. apply Z. discriminate.
Qed.
Lemma fold_mono : forall d acc, 0 <= acc -> (forall c, In c d -> 48 <= c <= 57) -> acc <= fold_left (fun n c => 10 * n + (c - 48)) d acc.
Proof.
  induction d as [|c d IH]; intros acc A D; cbn [fold_left]; [lia|]. pose proof (D c (or_introl eq_refl)).
  specialize (IH (10 * acc + (c - 48)) ltac:(lia) (fun x X => D x (or_intror X))). lia.
Qed.
Lemma digits_some : forall d acc, 0 <= acc -> (forall c, In c d -> 48 <= c <= 57) -> fold_left (fun n c => 10 * n + (c - 48)) d acc <= U64_MAX ->
  digits acc d = Some (fold_left (fun n c => 10 * n + (c - 48)) d acc).
Proof.
  induction d as [|c d IH]; intros acc A D L; cbn [digits fold_left]; [reflexivity|]. pose proof (D c (or_introl eq_refl)) as C.
  unfold digit. destruct (Z.leb_spec 48 c); [|lia]. destruct (Z.leb_spec c 57); [|lia]. cbn [andb]. cbn [fold_left] in L.
  replace (acc * 10 + (c - 48)) with (10 * acc + (c - 48)) by lia.
  pose proof (fold_mono d (10 * acc + (c - 48)) ltac:(lia) (fun x X => D x (or_intror X))). destruct (Z.leb_spec (10 * acc + (c - 48)) U64_MAX); [|lia].
  apply IH; [lia| |exact L]. intros x X. apply D. now right.
Qed.

Lemma white_range c : white c = true -> ~ 33 <= c <= 132.
Proof. unfold white. lia. Qed.

(** * Strings *)
Definition sound_name (u : text) : bool :=
  match u with [] => true | c :: _ => negb (white c || digit c || (c =? 46) || (c =? 43) || (c =? 45)) end &&
  match rev u with [] => true | c :: _ => negb (white c) end && negb (existsb (Z.eqb 10) u).

Lemma from_str_ok {T} (P : pfx T) sfx s v p : from_str P sfx s = Some (v, p) ->
  exists sign d w name w', s = sign ++ d ++ w ++ name ++ w' /\ (sign = [] \/ sign = [43]) /\
    d <> [] /\ (forall c, In c d -> 48 <= c <= 57) /\ v = number d /\ v <= U64_MAX /\
    (forall c, In c w -> white c = true) /\ (forall c, In c w' -> white c = true /\ c <> 10) /\ parse_unit P sfx name = Some p.
Proof.
  unfold from_str, captures.
  set (st := sign_of s).
  assert (ST : s = fst st ++ snd st /\ (fst st = [] \/ fst st = [43] \/ fst st = [45])).
  { unfold st, sign_of. destruct s as [|c s]; [split; [reflexivity|auto]|]. destruct (Z.eqb_spec c 43) as [-> |]; cbn [orb].
    - split; [reflexivity|]. auto.
    - destruct (Z.eqb_spec c 45) as [-> |]; split; try reflexivity; auto. }
  destruct st as [sign s1]. cbn [fst snd] in ST. destruct ST as [-> SG].
  destruct (span (fun c => digit c || (c =? 46)) s1) as [num s2] eqn:E1. destruct (span_ok _ _ _ _ E1) as (-> & N1 & N2).
  destruct (span white s2) as [w s3] eqn:E2. destruct (span_ok _ _ _ _ E2) as (-> & W1 & W2). cbn [snd].
  destruct (existsb (Z.eqb 10) s3) eqn:LF; [discriminate|].
  assert (NW : forall c, In c (sign ++ num) -> white c = false).
  { intros c C. apply in_app_or in C as [C|C].
    - destruct (white c) eqn:WC; [|reflexivity]. apply white_range in WC. destruct SG as [-> |[-> | ->]]; cbn in C; lia.
    - destruct (white c) eqn:WC; [|reflexivity]. apply white_range in WC. apply N1 in C. unfold digit in C. lia. }
  assert (TV : trim (sign ++ num) = sign ++ num).
  { unfold trim. rewrite (span_none white); [cbn [snd]; unfold trim_end; rewrite (span_none white); [cbn [snd]; apply rev_involutive|]|].
    - destruct (rev (sign ++ num)) as [|c x] eqn:R; [exact I|]. cbn. apply NW. apply rev_in. rewrite R. now left.
    - destruct (sign ++ num) as [|c x] eqn:R; [exact I|]. cbn. apply NW. now left. }
  rewrite TV. assert (TU : trim s3 = trim_end s3) by (unfold trim; rewrite (span_none white s3 W2); reflexivity). rewrite TU.
  destruct (parse_unit P sfx (trim_end s3)) as [p0|] eqn:PU; [|discriminate]. destruct (parse_u64 (sign ++ num)) as [v0|] eqn:PV; [|discriminate]. intros [= -> ->].
  destruct (trim_end_ok s3) as (w' & S3 & W3 & _).
  assert (PD : (sign = [] \/ sign = [43]) /\ num <> [] /\ digits 0 num = Some v).
  { unfold parse_u64 in PV. destruct SG as [-> |[-> | ->]]; cbn [app] in PV.
    - split; [auto|]. destruct num as [|c num]; [discriminate|]. split; [discriminate|]. destruct (Z.eqb_spec c 43) as [-> |]; [|exact PV].
      exfalso. specialize (N1 43 (or_introl eq_refl)). discriminate N1.
    - split; [auto|]. cbn [Z.eqb Pos.eqb] in PV. destruct num; [discriminate|]. split; [discriminate|exact PV].
    - cbn in PV. discriminate PV. }
  destruct PD as (PS & PN & PD). destruct (digits_ok _ _ _ (Z.le_refl 0) PD) as (D1 & D2 & D3).
  exists sign, num, w, (trim_end s3), w'. split; [rewrite <- S3, !app_assoc; reflexivity|]. split; [exact PS|]. split; [exact PN|]. split; [exact D1|]. split; [exact D2|]. split; [auto|].
  split; [exact W1|]. split; [|exact PU]. intros c C. split; [auto|]. intros ->. assert (X : existsb (Z.eqb 10) s3 = true); [|congruence].
  apply existsb_exists. exists 10. split; [rewrite S3; apply in_or_app; now right|reflexivity].
Qed.

Lemma from_str_some {T} (P : pfx T) sfx sign d w name w' p : (sign = [] \/ sign = [43]) ->
  d <> [] -> (forall c, In c d -> 48 <= c <= 57) -> number d <= U64_MAX ->
  (forall c, In c w -> white c = true) -> (forall c, In c w' -> white c = true /\ c <> 10) -> sound_name name = true -> parse_unit P sfx name = Some p ->
  from_str P sfx (sign ++ d ++ w ++ name ++ w') = Some (number d, p).
Proof.
  intros SG DN DD DM WW WW' SN PU. unfold from_str, captures.
  unfold sound_name in SN. apply Bool.andb_true_iff in SN as [SN S3]. apply Bool.andb_true_iff in SN as [S1 S2].
  set (rest := d ++ w ++ name ++ w').
  assert (ST : sign_of (sign ++ rest) = (sign, rest)).
  { unfold sign_of. destruct SG as [-> | ->]; [|reflexivity]. cbn [app]. unfold rest. destruct d as [|c d]; [contradiction|]. cbn [app]. pose proof (DD c (or_introl eq_refl)).
    destruct (Z.eqb_spec c 43); [lia|]. destruct (Z.eqb_spec c 45); [lia|]. reflexivity. }
  rewrite ST. unfold rest. clear ST rest.
  assert (NAME : name = [] \/ exists c x, name = c :: x /\ white c = false /\ digit c = false /\ c <> 46).
  { destruct name as [|c x]; [auto|]. right. exists c, x. split; [reflexivity|]. lia. }
  rewrite span_app.
  2:{ intros c C. apply DD in C. unfold digit. lia. }
  2:{ destruct w as [|c w]; cbn [app].
      - destruct NAME as [-> | (c & x & -> & A & B & C)]; cbn [app].
        + destruct w' as [|c w']; [exact I|]. cbn. destruct (WW' c (or_introl eq_refl)) as [X _]. apply white_range in X. unfold digit. lia.
        + cbn. lia.
      - cbn. pose proof (WW c (or_introl eq_refl)) as X. apply white_range in X. unfold digit. lia. }
  assert (S3' : exists ww s3, span white (w ++ name ++ w') = (ww, s3) /\ existsb (Z.eqb 10) s3 = false /\ trim s3 = name).
  { destruct NAME as [-> | (c & x & EN & A & B & C)].
    - exists (w ++ w'), []. cbn [app]. split; [|split; reflexivity]. replace (w ++ w') with ((w ++ w') ++ []) at 1 by apply app_nil_r. apply span_app; [|exact I].
      intros c C. apply in_app_or in C as [C|C]; [auto|apply WW'; exact C].
    - exists w, (name ++ w'). split; [apply span_app; [exact WW|rewrite EN; exact A]|]. split.
      + apply Bool.not_true_iff_false. intros X. apply existsb_exists in X as (y & Y & E). apply Z.eqb_eq in E. subst y. apply in_app_or in Y as [Y|Y].
        * apply Bool.negb_true_iff in S3. assert (Z : existsb (Z.eqb 10) name = true) by (apply existsb_exists; exists 10; auto). congruence.
        * destruct (WW' 10 Y) as [_ Z]. contradiction.
      + unfold trim. rewrite (span_none white); [|rewrite EN; exact A]. cbn [snd]. apply trim_end_app; [intros y Y; apply WW'; exact Y|].
        destruct (rev name) as [|y r]; [exact I|]. cbn. now apply Bool.negb_true_iff. }
  destruct S3' as (ww & s3 & -> & E10 & ET). cbn [snd]. rewrite E10, ET, PU.
  assert (NW : forall c, In c (sign ++ d) -> white c = false).
  { intros c C. destruct (white c) eqn:WC; [|reflexivity]. apply white_range in WC. apply in_app_or in C as [C|C].
    - destruct SG as [-> | ->]; cbn in C; lia.
    - apply DD in C. lia. }
  assert (TV : trim (sign ++ d) = sign ++ d).
  { unfold trim. rewrite (span_none white); [cbn [snd]; unfold trim_end; rewrite (span_none white); [cbn [snd]; apply rev_involutive|]|].
    - destruct (rev (sign ++ d)) as [|c x] eqn:R; [exact I|]. cbn. apply NW. apply rev_in. rewrite R. now left.
    - destruct (sign ++ d) as [|c x] eqn:R; [exact I|]. cbn. apply NW. now left. }
  rewrite TV. assert (PV : parse_u64 (sign ++ d) = Some (number d)).
  { unfold parse_u64. destruct SG as [-> | ->]; cbn [app].
    - destruct d as [|c d]; [contradiction|]. pose proof (DD c (or_introl eq_refl)). destruct (Z.eqb_spec c 43); [lia|]. apply digits_some; auto; lia.
    - cbn [Z.eqb Pos.eqb]. destruct d as [|c d]; [contradiction|]. apply digits_some; auto; lia. }
  rewrite PV. reflexivity.
Qed.

(** * Names of units *)
Lemma lookup_in {T} (l : list (text * T)) s p : lookup l s = Some p -> In (s, p) l.
Proof.
  induction l as [|[w q] l IH]; cbn [lookup]; [discriminate|]. destruct (text_eqb w s) eqn:E; [|right; auto]. apply text_eqb_eq in E. subst w. intros [= ->]. now left.
Qed.
Lemma strip_ok s f x : strip_suffix s f = Some x -> s = x ++ f.
Proof.
  unfold strip_suffix. destruct (Nat.leb (List.length f) (List.length s) && text_eqb (skipn (List.length s - List.length f) s) f) eqn:E; [|discriminate].
  apply Bool.andb_true_iff in E as [_ E]. apply text_eqb_eq in E. intros [= <-]. rewrite <- E at 2. symmetry. apply firstn_skipn.
Qed.
Lemma strip_first_ok sfx s : exists f, In f ([] :: sfx) /\ s = strip_first sfx s ++ f.
Proof.
  induction sfx as [|f sfx IH]; cbn [strip_first].
  - exists []. split; [now left|]. symmetry. apply app_nil_r.
  - destruct (strip_suffix s f) as [x|] eqn:E.
    + exists f. split; [right; now left|]. apply strip_ok. exact E.
    + destruct IH as (g & [<-|G] & X); [exists []; split; [now left|exact X]|]. exists g. split; [right; now right|exact X].
Qed.
Lemma parse_unit_ok {T} (P : pfx T) sfx u p : parse_unit P sfx u = Some p ->
  exists x f, u = x ++ f /\ In f ([] :: sfx) /\ In (x, p) (([], p_default P) :: p_words P).
Proof.
  unfold parse_unit. destruct (strip_first_ok sfx u) as (f & F & U). intros E. exists (strip_first sfx u), f. split; [exact U|]. split; [exact F|].
  destruct (strip_first sfx u) as [|c x]; [injection E as ->; now left|]. right. apply lookup_in. exact E.
Qed.

Definition same_name (a b : text * Z) : bool := text_eqb (fst a) (fst b) && (snd a =? snd b).
Lemma same_name_eq a b : same_name a b = true -> a = b.
Proof. destruct a, b. unfold same_name. cbn. intros E. apply Bool.andb_true_iff in E as [A B]. apply text_eqb_eq in A. apply Z.eqb_eq in B. congruence. Qed.

(** The words and suffixes of the code give exactly the names of a table. *)
Definition names_ok {T} (P : pfx T) (sfx : list text) (names : list (text * Z)) : bool :=
  forallb (fun e => forallb (fun f => existsb (same_name (fst e ++ f, p_mag P (snd e))) names) ([] :: sfx)) (([], p_default P) :: p_words P) &&
  forallb (fun n => match parse_unit P sfx (fst n) with Some p => p_mag P p =? snd n | None => false end && sound_name (fst n)) names.

Lemma white_spaces c : white c = true <-> In c spaces.
Proof. unfold white, spaces. split; [intros H; cbn; lia|]. cbn. intros H. repeat destruct H as [<-|H]; try reflexivity. destruct H. Qed.

Lemma meaning {T} (P : pfx T) sfx names : names_ok P sfx names = true ->
  forall s v m, (exists p, from_str P sfx s = Some (v, p) /\ p_mag P p = m) <-> means names s v m.
Proof.
  intros OK s v m. unfold names_ok in OK. apply Bool.andb_true_iff in OK as [OK1 OK2]. split.
  - intros (p & E & M). destruct (from_str_ok _ _ _ _ _ E) as (sign & d & w & name & w' & A1 & A2 & A3 & A4 & A5 & A6 & A7 & A8 & PU).
    exists sign, d, w, name, w'. repeat (split; [assumption|]). split; [intros c C; apply white_spaces; exact (A7 c C)|]. split; [intros c C; rewrite <- white_spaces; exact (A8 c C)|]. destruct (parse_unit_ok _ _ _ _ PU) as (x & f & -> & F & X).
    rewrite forallb_forall in OK1. specialize (OK1 _ X). rewrite forallb_forall in OK1. specialize (OK1 _ F). cbn [fst snd] in OK1. rewrite M in OK1.
    apply existsb_exists in OK1 as (y & Y & SY). apply same_name_eq in SY. subst y. exact Y.
  - intros (sign & d & w & name & w' & A1 & A2 & A3 & A4 & A5 & A6 & A7 & A8 & IN).
    rewrite forallb_forall in OK2. specialize (OK2 _ IN). cbn [fst snd] in OK2. apply Bool.andb_true_iff in OK2 as [OK2 SN].
    destruct (parse_unit P sfx name) as [p|] eqn:PU; [|discriminate]. exists p. split; [|apply Z.eqb_eq; exact OK2]. rewrite A1, A5. apply from_str_some; auto; [lia|intros c C; apply white_spaces; exact (A7 c C)|intros c C; rewrite white_spaces; exact (A8 c C)].
Qed.

Lemma time_names_ok : names_ok Tim time_sfx time_names = true. Proof. vm_compute. reflexivity. Qed.
Lemma time_upper_names_ok : names_ok TimUpper time_sfx time_upper_names = true. Proof. vm_compute. reflexivity. Qed.
Lemma bytes_names_ok : names_ok SiUpper bytes_sfx bytes_names = true. Proof. vm_compute. reflexivity. Qed.
Lemma bits_names_ok : names_ok SiUpper bits_sfx bits_names = true. Proof. vm_compute. reflexivity. Qed.

Lemma small_bytes_names_ok : names_ok Si bytes_sfx small_bytes_names = true. Proof. vm_compute. reflexivity. Qed.
Lemma small_bits_names_ok : names_ok Si bits_sfx small_bits_names = true. Proof. vm_compute. reflexivity. Qed.

Lemma unambiguous {T} (P : pfx T) sfx names s v m v' m' : names_ok P sfx names = true -> means names s v m -> means names s v' m' -> v = v' /\ m = m'.
Proof. intros OK A B. apply (meaning P sfx names OK) in A as (p & A & <-). apply (meaning P sfx names OK) in B as (q & B & <-). rewrite A in B. injection B as <- <-. auto. Qed.

(** * Writing and reading back *)
Lemma number_snoc d c : number (d ++ [c]) = 10 * number d + (c - 48).
Proof. unfold number. now rewrite fold_left_app. Qed.
Lemma dec_digits : forall fuel n, 0 <= n < 10 ^ Z.of_nat fuel -> (forall c, In c (dec fuel n) -> 48 <= c <= 57) /\ (fuel <> O -> dec fuel n <> []) /\ number (dec fuel n) = n.
Proof.
  induction fuel as [|k IH]; intros n N; cbn [dec].
  - cbn in N. assert (n = 0) by lia. subst n. split; [intros c []|]. split; [contradiction|reflexivity].
  - destruct (Z.ltb_spec n 10) as [L|L].
    + split; [intros c [<-|[]]; lia|]. split; [discriminate|]. unfold number. cbn. lia.
    + rewrite Nat2Z.inj_succ, Z.pow_succ_r in N by lia. assert (0 <= n / 10 < 10 ^ Z.of_nat k) as D by (split; [apply Z.div_pos; lia|apply Z.div_lt_upper_bound; lia]).
      destruct (IH _ D) as (A & B & C). pose proof (Z.mod_pos_bound n 10 ltac:(lia)). split; [|split].
      * intros c X. apply in_app_or in X as [X|[<-|[]]]; [auto|lia].
      * intros _ X. apply app_eq_nil in X as [_ X]. discriminate X.
      * rewrite number_snoc, C. pose proof (Z.div_mod n 10 ltac:(lia)). lia.
Qed.
Lemma u64_pow n : n <= U64_MAX -> n < 10 ^ Z.of_nat 20. Proof. unfold U64_MAX. change (10 ^ Z.of_nat 20) with 100000000000000000000. lia. Qed.

Lemma display_back {T} (P : pfx T) sfx v p : 0 <= v <= U64_MAX -> sound_name (p_show P p ++ hd [] sfx) = true -> parse_unit P sfx (p_show P p ++ hd [] sfx) = Some p ->
  from_str P sfx (display P sfx v p) = Some (v, p).
Proof.
  intros V SN PU. destruct (dec_digits 20 v) as (A & B & C); [split; [lia|apply u64_pow; lia]|].
  pose proof (from_str_some P sfx [] (dec 20 v) [32] (p_show P p ++ hd [] sfx) [] p) as X. cbn [app] in X. rewrite app_nil_r in X. rewrite C in X. unfold display. cbn [app].
  apply X; auto; try lia. intros c [<-|[]]. reflexivity.
Qed.
Lemma display_time v p : 0 <= v <= U64_MAX -> from_str Tim time_sfx (display Tim time_sfx v p) = Some (v, p).
Proof. intros V. apply display_back; [exact V| |]; destruct p; vm_compute; reflexivity. Qed.
Lemma display_time_upper v p : 0 <= v <= U64_MAX -> from_str TimUpper time_sfx (display TimUpper time_sfx v p) = Some (v, p).
Proof. intros V. apply display_back; [exact V| |]; destruct p; vm_compute; reflexivity. Qed.
Lemma display_bytes v p : 0 <= v <= U64_MAX -> from_str SiUpper bytes_sfx (display SiUpper bytes_sfx v p) = Some (v, p).
Proof. intros V. apply display_back; [exact V| |]; destruct p; vm_compute; reflexivity. Qed.
Lemma display_bits v p : 0 <= v <= U64_MAX -> from_str SiUpper bits_sfx (display SiUpper bits_sfx v p) = Some (v, p).
Proof. intros V. apply display_back; [exact V| |]; destruct p; vm_compute; reflexivity. Qed.
Lemma display_si v p : 0 <= v <= U64_MAX -> from_str Si bytes_sfx (display Si bytes_sfx v p) = Some (v, p) /\ from_str Si bits_sfx (display Si bits_sfx v p) = Some (v, p).
Proof. intros V. split; (apply display_back; [exact V| |]; destruct p; vm_compute; reflexivity). Qed.

(** * Converting *)
Lemma convert_ok {T} (P : pfx T) v p to r : (forall x, 0 < p_mag P x) -> convert P v p to = Some r ->
  match r with
  | CVal v' p' => p' = to /\ v' * p_mag P to = v * p_mag P p /\ (p_mag P to | p_mag P p) /\ v' <= U64_MAX
  | CPrecision => ~ (p_mag P to | p_mag P p)
  | CBounds => (p_mag P to | p_mag P p) /\ U64_MAX * p_mag P to < v * p_mag P p
  end.
Proof.
  intros POS. unfold convert. pose proof (POS p) as PP. pose proof (POS to) as PT. set (a := p_mag P p) in *. set (b := p_mag P to) in *.
  destruct (Z.eqb_spec (a mod b) 0) as [M|M]; cbn [negb].
  - unfold assert_then. destruct (_ <=? _); [|discriminate]. intros [= <-]. unfold u64_checked_mul. assert (D : a = b * (a / b)) by (pose proof (Z.div_mod a b ltac:(lia)); lia).
    destruct (Z.leb_spec (v * (a / b)) U64_MAX) as [L|L].
    + split; [reflexivity|]. split; [rewrite D at 2; ring|]. split; [|exact L]. exists (a / b). lia.
    + split; [exists (a / b); lia|]. rewrite D. nia.
  - intros [= <-]. intros X. apply Z.mod_divide in X; [contradiction|lia].
Qed.
Lemma tim_pos p : 0 < p_mag Tim p. Proof. destruct p; vm_compute; reflexivity. Qed.
Lemma timu_pos p : 0 < p_mag TimUpper p. Proof. destruct p; vm_compute; reflexivity. Qed.
Lemma siu_pos p : 0 < p_mag SiUpper p. Proof. destruct p; vm_compute; reflexivity. Qed.
Lemma si_pos p : 0 < p_mag Si p. Proof. destruct p; vm_compute; reflexivity. Qed.

Lemma convert_some {T} (P : pfx T) v p to : p_mag P p / p_mag P to <= U64_MAX -> convert P v p to <> None.
Proof.
  intros L. unfold convert. destruct (negb _); [discriminate|]. unfold assert_then. apply Z.leb_le in L. rewrite L. discriminate.
Qed.
Lemma tim_some v p to : convert Tim v p to <> None. Proof. apply convert_some. destruct p, to; vm_compute; discriminate. Qed.
Lemma timu_some v p to : convert TimUpper v p to <> None. Proof. apply convert_some. destruct p, to; vm_compute; discriminate. Qed.
Lemma siu_some v p to : convert SiUpper v p to <> None. Proof. apply convert_some. destruct p, to; vm_compute; discriminate. Qed.

(** * Use *)
Lemma unwrap_ok {T} (P : pfx T) v p to : (forall x, 0 < p_mag P x) -> convert P v p to <> None -> p_mag P to = 1 ->
  unwrap (convert P v p to) = if v * p_mag P p <=? U64_MAX then Some (v * p_mag P p) else None.
Proof.
  intros POS NN ONE. destruct (convert P v p to) as [r|] eqn:E; [|contradiction]. pose proof (convert_ok _ _ _ _ _ POS E) as K. unfold unwrap. rewrite ONE in K.
  destruct r as [v' p'| |].
  - destruct K as (_ & K & _ & L). rewrite Z.mul_1_r in K. subst v'. destruct (Z.leb_spec (v * p_mag P p) U64_MAX); [reflexivity|lia].
  - exfalso. apply K. apply Z.divide_1_l.
  - destruct K as [_ K]. destruct (Z.leb_spec (v * p_mag P p) U64_MAX); [lia|reflexivity].
Qed.
Lemma config_ok {T} (P : pfx T) sfx names f to : names_ok P sfx names = true -> (forall x, 0 < p_mag P x) -> (forall v p, convert P v p to <> None) -> p_mag P to = 1 ->
  (forall q, f q = unwrap (convert P (fst q) (snd q) to)) ->
  forall s n, config P sfx f s = Some (Some n) <-> exists v m, means names s v m /\ n = v * m /\ n <= U64_MAX.
Proof.
  intros OK POS NN ONE F s n. unfold config. split.
  - destruct (from_str P sfx s) as [[v p]|] eqn:E; [|discriminate]. rewrite F. cbn [fst snd]. rewrite unwrap_ok by auto.
    destruct (Z.leb_spec (v * p_mag P p) U64_MAX); [|discriminate]. intros [= <-]. exists v, (p_mag P p). split; [|auto]. apply (meaning P sfx names OK). eauto.
  - intros (v & m & ME & -> & L). apply (meaning P sfx names OK) in ME as (p & E & <-). rewrite E, F. cbn [fst snd]. rewrite unwrap_ok by auto.
    destruct (Z.leb_spec (v * p_mag P p) U64_MAX); [reflexivity|lia].
Qed.
Lemma config_time s n : config Tim time_sfx nanos s = Some (Some n) <-> exists v m, means time_names s v m /\ n = v * m /\ n <= U64_MAX.
Proof. apply (config_ok Tim time_sfx time_names nanos TNano time_names_ok tim_pos (fun v p => tim_some v p TNano) eq_refl). reflexivity. Qed.
Lemma config_time_upper s n : config TimUpper time_sfx seconds s = Some (Some n) <-> exists v m, means time_upper_names s v m /\ n = v * m /\ n <= U64_MAX.
Proof. apply (config_ok TimUpper time_sfx time_upper_names seconds USec time_upper_names_ok timu_pos (fun v p => timu_some v p USec) eq_refl). reflexivity. Qed.
Lemma config_bytes s n : config SiUpper bytes_sfx base_units s = Some (Some n) <-> exists v m, means bytes_names s v m /\ n = v * m /\ n <= U64_MAX.
Proof. apply (config_ok SiUpper bytes_sfx bytes_names base_units UBase bytes_names_ok siu_pos (fun v p => siu_some v p UBase) eq_refl). reflexivity. Qed.
Lemma config_bits s n : config SiUpper bits_sfx base_units s = Some (Some n) <-> exists v m, means bits_names s v m /\ n = v * m /\ n <= U64_MAX.
Proof. apply (config_ok SiUpper bits_sfx bits_names base_units UBase bits_names_ok siu_pos (fun v p => siu_some v p UBase) eq_refl). reflexivity. Qed.

Lemma convert_all (T : Type) (P : pfx T) v p to r :
  In (existT pfx T P) [existT pfx tim Tim; existT pfx timu TimUpper; existT pfx siu SiUpper; existT pfx si Si] -> convert P v p to = Some r ->
  match r with
  | CVal v' p' => p' = to /\ v' * p_mag P to = v * p_mag P p /\ (p_mag P to | p_mag P p) /\ v' <= U64_MAX
  | CPrecision => ~ (p_mag P to | p_mag P p)
  | CBounds => (p_mag P to | p_mag P p) /\ U64_MAX * p_mag P to < v * p_mag P p
  end.
Proof.
  intros IN E. apply (convert_ok P v p to r); [|exact E].
  assert (X : forall y : {T : Type & pfx T}, In y [existT pfx tim Tim; existT pfx timu TimUpper; existT pfx siu SiUpper; existT pfx si Si] -> forall x, 0 < p_mag (projT2 y) x).
  { intros y [<-|[<-|[<-|[<-|[]]]]]; [exact tim_pos|exact timu_pos|exact siu_pos|exact si_pos]. }
  exact (X _ IN).
Qed.

Lemma from_int_all n : (from_int Tim n = Some (n, TSec) <-> 0 <= n <= U64_MAX) /\ (from_int TimUpper n = Some (n, USec) <-> 0 <= n <= U64_MAX) /\
  (from_int SiUpper n = Some (n, UBase) <-> 0 <= n <= U64_MAX) /\ (~ 0 <= n <= U64_MAX -> from_int Tim n = None /\ from_int TimUpper n = None /\ from_int SiUpper n = None).
Proof.
  unfold from_int. destruct ((0 <=? n) && (n <=? U64_MAX)) eqn:E.
  - assert (0 <= n <= U64_MAX) by lia. cbn. tauto.
  - assert (~ 0 <= n <= U64_MAX) by lia. cbn. repeat split; intros; try discriminate; tauto.
Qed.
