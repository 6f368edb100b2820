(** The loop of mprotect: what it does to regions and mappings. *)
From Verif Require Import Base IntervalModel IntervalSpec IntervalProofs MemKernel MemModel MemSpec MemLayout MemUnmap.

Section Pr.
Variables s t : Z.
Hypothesis ST : s < t.
Hypothesis AS : aligned s.
Hypothesis AT : aligned t.
Variable P : prot.
Variable G : Z -> bool.
Variable k0 : kern.
Variable l : list ent.
Hypothesis L : lay G k0 l.

Record kpi (d : list ent) (k : kern) : Prop := {
  kp_plug : k_plug k = k_plug k0;
  kp_obj : k_obj k = k_obj k0;
  kp_flen : k_flen k = k_flen k0;
  kp_file : k_file k = k_file k0;
  kp_shad : forall y, k_shad k y = match k_shad k0 y with Some (p, x) => Some (if hit s t d x then P else p, x) | None => None end }.

Lemma kpi_same d q k : (forall x, own s t x q = false) -> kpi d k -> kpi (d ++ [q]) k.
Proof.
  intros O [A B C D E]. split; auto.
  intros y. rewrite E. destruct (k_shad k0 y) as [[p x]|]; [|reflexivity]. rewrite hit_snoc, O, orb_false_r. reflexivity.
Qed.
Lemma prot_ok d q k ms me b : In q l -> base q <> 0 -> ms = Z.max (st q) s -> me = Z.min (en q) t -> ms < me ->
  b = base q + (ms - st q) -> kpi d k -> kpi (d ++ [q]) (s_mprotect b (me - ms) P k).
Proof.
  intros I NB EM EE LT EB [A B C D E]. destruct (la_al _ _ _ L q I) as (A1 & A2 & _). destruct (la_shm _ _ _ L q I NB) as (A3 & A4 & _).
  assert (AM : aligned ms) by (subst ms; destruct (Z.max_spec (st q) s) as [[_ ->]|[_ ->]]; auto).
  assert (AE : aligned me) by (subst me; destruct (Z.min_spec (en q) t) as [[_ ->]|[_ ->]]; auto).
  unfold s_mprotect. replace (b mod PAGE =? 0) with true.
  2:{ symmetry. apply Z.eqb_eq. subst b. change (aligned (base q + (ms - st q))). apply al_add; auto. apply al_sub; auto. }
  rewrite rup_whole by (apply al_sub; auto). split; cbn; auto.
  intros y. destruct (inr_dec b (b + (me - ms)) y) as [H|H].
  - rewrite over_in by assumption. rewrite E. pose proof (la_map _ _ _ L q (st q + (y - base q)) I NB ltac:(lia)) as M.
    replace (base q + (st q + (y - base q) - st q)) with y in M by lia. rewrite M, hit_snoc. cbn.
    replace (own s t _ q) with true; [now rewrite orb_true_r|]. symmetry. apply own_iff. split; [exact NB|lia].
  - rewrite over_out by assumption. rewrite E. destruct (k_shad k0 y) as [[p x]|] eqn:Q; [|reflexivity].
    rewrite hit_snoc. replace (own s t x q) with false; [now rewrite orb_false_r|]. symmetry. apply not_true_iff_false.
    rewrite own_iff. intros (_ & X & Y). destruct (la_rev _ _ _ L _ _ _ Q (la_out _ _ _ L q x I X)) as (q' & I' & N' & X' & Y').
    assert (q' = q) by (apply (wf_unique l q' q x (la_wf _ _ _ L) I' I); lia). subst q'. lia.
Qed.

(** the changed part of an entry *)
Definition mid (q : ent) : ent := ((Z.max (st q) s, Z.min (en q) t), with_prot P (shift q (Z.max (st q) s))).
Definition mids (d : list ent) (p : ent) : Prop := exists q, In q d /\ Z.max (st q) s < Z.min (en q) t /\ p = mid q.

Lemma ppos q : In q l -> st q < en q.
Proof. apply wf_pos. exact (la_wf _ _ _ L). Qed.

Lemma put_back d q td lc k ms me r : l = d ++ q :: td -> WF lc -> mem s t (mids d) (d ++ [q]) td lc ->
  ms = Z.max (st q) s -> me = Z.min (en q) t -> ms < me -> r = with_prot P (shift q ms) ->
  exists lc', (do (m, muts) <- im_insert (of_list lc) ms me r; check (no_muts muts); Some (k, m)) = Some (k : kern, of_list lc') /\
    WF lc' /\ mem s t (mids (d ++ [q])) (d ++ [q]) td lc'.
Proof.
  intros EL W M EM EE LT ER.
  pose proof (la_wf _ _ _ L) as WL. rewrite EL in WL. apply wf_app in WL as (WD & WL & DD). apply wf_cons in WL as (Pq & WT & FT).
  rewrite Forall_forall in FT.
  destruct (insert_ok ms me r lc LT W) as (lc' & E & W' & N).
  { intros p I. apply M in I as [(r0 & I & A & B)|[(r0 & I & A & B)|(r0 & I & A & B)]].
    - destruct p as [[b e] v]. cbn [fst] in *. unfold st at 1, en at 1. cbn. assert (In r0 l).
      { rewrite EL. apply in_app_iff in I as [I|[<-|[]]]; apply in_app_iff; cbn; auto. }
      apply (rem_in s t ST) in A; [lia|apply ppos; auto].
    - destruct p as [[b e] v]. cbn [fst] in *. unfold st at 1, en at 1. cbn. assert (In r0 l) by (rewrite EL; apply in_app_iff; cbn; auto).
      apply (rem_in s t ST) in A; [lia|apply ppos; auto].
    - specialize (DD r0 q I (or_introl eq_refl)). subst p. left. unfold mid, en at 1. cbn. lia. }
  rewrite E. ob. cbn [no_muts]. rewrite assert_true by reflexivity. exists lc'. split; [reflexivity|]. split; [exact W'|].
  intros p. rewrite (N p), (M p). unfold mids. split.
  - intros [->|[H|[H|(r0 & I & A & B)]]]; [right; right|auto|auto|right; right].
    + exists q. split; [apply in_app_iff; cbn; auto|]. split; [lia|]. unfold mid. subst. reflexivity.
    + exists r0. split; [apply in_app_iff; auto|auto].
  - intros [H|[H|(r0 & I & A & B)]]; [auto|auto|]. apply in_app_iff in I as [I|[<-|[]]].
    + right. right. right. exists r0. auto.
    + left. subst. reflexivity.
Qed.

Lemma no_mid d q td : l = d ++ q :: td -> forall p, mids d p -> fst p <> (t, en q).
Proof.
  intros EL p (r0 & I & A & B) E. subst p. unfold mid in E. cbn in E. injection E as E1 E2. lia.
Qed.

Lemma mids_none d q td lc : (Z.max (st q) s < Z.min (en q) t -> False) -> mem s t (mids d) (d ++ [q]) td lc ->
  mem s t (mids (d ++ [q])) (d ++ [q]) td lc.
Proof.
  intros NO M p. rewrite (M p). unfold mids. split.
  - intros [H|[H|(r0 & I & A & B)]]; auto. right. right. exists r0. split; [apply in_app_iff; auto|auto].
  - intros [H|[H|(r0 & I & A & B)]]; auto. apply in_app_iff in I as [I|[<-|[]]]; [right; right; exists r0; auto|tauto].
Qed.

Lemma protect_step q td d lc k : l = d ++ q :: td -> WF lc -> mem s t (mids d) d (q :: td) lc -> kpi d k ->
  exists lc' k', protect_all P (k, of_list lc) (report s t q) = Some (k', of_list lc') /\
    WF lc' /\ mem s t (mids (d ++ [q])) (d ++ [q]) td lc' /\ kpi (d ++ [q]) k'.
Proof.
  intros EL W M K.
  assert (IQ : In q l) by (rewrite EL; apply in_app_iff; cbn; auto).
  pose proof (ppos q IQ) as PQ.
  assert (NUL : base q = 0 -> forall x, own s t x q = false).
  { intros Z0 x. apply not_true_iff_false. rewrite own_iff. tauto. }
  pose proof (touches_ok s t ST q PQ) as T.
  destruct T as [O R|A B R|A B C R|A B C R|A B R]; cbn [protect_all].
  - exists lc, k. split; [reflexivity|]. split; [exact W|]. split.
    + apply mids_none; [lia|]. apply mem_same; auto. intros p I. rewrite R in I. destruct I as [E|[]]. unfold st at 1. rewrite <- E. apply shift_same.
    + apply kpi_same; auto. intros x. apply not_true_iff_false. rewrite own_iff. lia.
  - pose proof (in_cur s t _ _ _ _ _ (t, en q) M ltac:(rewrite R; cbn; auto)) as I2.
    cbn [protect1]. unfold im_get1. rewrite (get1_ok lc _ t W I2) by (unfold st, en in *; cbn; lia). ob. cbn [snd with_prot r_base].
    destruct (Z.eqb_spec (base q) 0) as [Z0|Z0].
    + assert (MS : mem s t (mids d) (d ++ [q]) td lc) by (apply mem_same; auto; intros p _; now apply shift_null).
      destruct (put_back d q td lc k s t (with_prot P (snd q)) EL W MS) as (lc' & E & W' & M'); try lia; [now rewrite shift_null|].
      rewrite E. ob. exists lc', k. split; [reflexivity|]. split; [exact W'|]. split; [exact M'|]. apply kpi_same; auto.
    + destruct (set_ok lc t _ (with_base (base q + ((s - st q) + (t - s))) (snd q)) W I2) as (lc1 & E1 & W1 & N1); [unfold st, en in *; cbn; lia|].
      rewrite E1. ob.
      assert (M1 : mem s t (mids d) (d ++ [q]) td lc1).
      { eapply mem_set with (v := shift q t); [exact ST|exact L|exact (no_mid d q td EL)|exact EL|lia|rewrite R; cbn; auto|reflexivity| | |exact M].
        - intros b e J. rewrite R in J. destruct J as [J|[J|[]]]; injection J as <- <-; auto.
        - intros p. rewrite (N1 p). cbn [fst]. unfold shift. destruct (Z.eqb_spec (base q) 0); [lia|].
          replace (s - st q + (t - s)) with (t - st q) by lia. tauto. }
      match goal with |- context [do (_, _) <- im_insert _ _ _ ?r; check _; Some (?k1, _)] =>
        destruct (put_back d q td lc1 k1 s t r EL W1 M1) as (lc' & E & W' & M') end; try lia.
      { unfold shift. destruct (Z.eqb_spec (base q) 0); [lia|]. reflexivity. }
      rewrite E. ob. eexists _, _. split; [reflexivity|]. split; [exact W'|]. split; [exact M'|]. apply prot_ok; auto; cbn; lia.
  - pose proof (in_cur s t _ _ _ _ _ (st q, s) M ltac:(rewrite R; cbn; auto)) as I1.
    cbn [protect1]. unfold im_get1. rewrite (get1_ok lc _ (s - 1) W I1) by (unfold st, en in *; cbn; lia). ob. cbn [snd with_prot r_base].
    assert (MS : mem s t (mids d) (d ++ [q]) td lc).
    { apply mem_same; auto. intros p I. rewrite R in I. destruct I as [E|[]]. unfold st at 1. rewrite <- E. cbn. apply shift_same. }
    destruct (Z.eqb_spec (base q) 0) as [Z0|Z0].
    + destruct (put_back d q td lc k s (en q) (with_prot P (snd q)) EL W MS) as (lc' & E & W' & M'); try lia; [now rewrite shift_null|].
      rewrite E. ob. exists lc', k. split; [reflexivity|]. split; [exact W'|]. split; [exact M'|]. apply kpi_same; auto.
    + match goal with |- context [do (_, _) <- im_insert _ _ _ ?r; check _; Some (?k1, _)] =>
        destruct (put_back d q td lc k1 s (en q) r EL W MS) as (lc' & E & W' & M') end; try lia.
      { unfold shift. destruct (Z.eqb_spec (base q) 0); [lia|]. reflexivity. }
      rewrite E. ob. eexists _, _. split; [reflexivity|]. split; [exact W'|]. split; [exact M'|]. apply prot_ok; auto; cbn; lia.
  - pose proof (in_cur s t _ _ _ _ _ (t, en q) M ltac:(rewrite R; cbn; auto)) as I2.
    cbn [protect1]. unfold im_get1. rewrite (get1_ok lc _ t W I2) by (unfold st, en in *; cbn; lia). ob. cbn [snd with_prot r_base].
    destruct (Z.eqb_spec (base q) 0) as [Z0|Z0].
    + assert (MS : mem s t (mids d) (d ++ [q]) td lc) by (apply mem_same; auto; intros p _; now apply shift_null).
      destruct (put_back d q td lc k (st q) t (with_prot P (snd q)) EL W MS) as (lc' & E & W' & M'); try lia; [now rewrite shift_null|].
      rewrite E. ob. exists lc', k. split; [reflexivity|]. split; [exact W'|]. split; [exact M'|]. apply kpi_same; auto.
    + destruct (set_ok lc t _ (with_base (base q + (t - st q)) (snd q)) W I2) as (lc1 & E1 & W1 & N1); [unfold st, en in *; cbn; lia|].
      rewrite E1. ob.
      assert (M1 : mem s t (mids d) (d ++ [q]) td lc1).
      { eapply mem_set with (v := shift q t); [exact ST|exact L|exact (no_mid d q td EL)|exact EL|lia|rewrite R; cbn; auto|reflexivity| | |exact M].
        - intros b e J. rewrite R in J. destruct J as [J|[]]; injection J as <- <-; auto.
        - intros p. rewrite (N1 p). cbn [fst]. unfold shift. destruct (Z.eqb_spec (base q) 0); [lia|]. tauto. }
      match goal with |- context [do (_, _) <- im_insert _ _ _ ?r; check _; Some (?k1, _)] =>
        destruct (put_back d q td lc1 k1 (st q) t r EL W1 M1) as (lc' & E & W' & M') end; try lia.
      { now rewrite shift_same. }
      rewrite E. ob. eexists _, _. split; [reflexivity|]. split; [exact W'|]. split; [exact M'|]. apply prot_ok; auto; cbn; lia.
  - cbn [protect1 with_prot r_base].
    assert (MS : mem s t (mids d) (d ++ [q]) td lc).
    { apply mem_same; auto. intros p I. rewrite R in I. destruct I. }
    destruct (Z.eqb_spec (base q) 0) as [Z0|Z0].
    + destruct (put_back d q td lc k (st q) (en q) (with_prot P (snd q)) EL W MS) as (lc' & E & W' & M'); try lia; [now rewrite shift_same|].
      rewrite E. ob. exists lc', k. split; [reflexivity|]. split; [exact W'|]. split; [exact M'|]. apply kpi_same; auto.
    + match goal with |- context [do (_, _) <- im_insert _ _ _ ?r; check _; Some (?k1, _)] =>
        destruct (put_back d q td lc k1 (st q) (en q) r EL W MS) as (lc' & E & W' & M') end; try lia.
      { now rewrite shift_same. }
      rewrite E. ob. eexists _, _. split; [reflexivity|]. split; [exact W'|]. split; [exact M'|]. apply prot_ok; auto; cbn; lia.
Qed.

Lemma protect_app a b km : protect_all P km (a ++ b) = do km' <- protect_all P km a; protect_all P km' b.
Proof.
  revert km. induction a as [|m a IH]; intros km; [reflexivity|]. cbn [protect_all app].
  destruct (protect1 P km m); [ob; apply IH|reflexivity].
Qed.
Lemma protect_loop : forall td d lc k, l = d ++ td -> WF lc -> mem s t (mids d) d td lc -> kpi d k ->
  exists lc' k', protect_all P (k, of_list lc) (flat_map (report s t) td) = Some (k', of_list lc') /\
    WF lc' /\ mem s t (mids l) l [] lc' /\ kpi l k'.
Proof.
  induction td as [|q td IH]; intros d lc k EL W M K.
  { rewrite app_nil_r in EL. subst d. exists lc, k. cbn. auto. }
  cbn [flat_map]. rewrite protect_app. destruct (protect_step q td d lc k EL W M K) as (lc1 & k1 & E & W1 & M1 & K1).
  rewrite E. ob. apply (IH (d ++ [q])); auto. now rewrite <- app_assoc.
Qed.
End Pr.

Lemma protect_ok s t P G k l : s < t -> aligned s -> aligned t -> lay G k l ->
  exists k' l', (do (m, muts) <- im_clear (of_list l) s t; protect_all P (k, m) muts) = Some (k', of_list l') /\ lay G k' l' /\
    (forall p, In p l' <-> (exists q, In q l /\ In (fst p) (rem s t q) /\ snd p = shift q (st p)) \/
                           (exists q, In q l /\ Z.max (st q) s < Z.min (en q) t /\ p = mid s t P q)) /\
    k_plug k' = k_plug k /\ k_obj k' = k_obj k /\ k_flen k' = k_flen k /\ k_file k' = k_file k.
Proof.
  intros ST AS AT L. pose proof (la_wf _ _ _ L) as W.
  destruct (step_ok l (IClear s t) W ST) as (lc & E & WC & M). cbn [op_range op_value fst snd im_step] in *.
  rewrite E. ob.
  destruct (protect_loop s t ST AS AT P G k l L l [] lc k eq_refl WC) as (l' & k' & E' & W' & M' & [K1 K2 K3 K4 K5]).
  { intros p. rewrite (M p). split.
    - intros [(v & X & _)|(q & A & B & C)]; [discriminate|]. right. left. exists q. auto.
    - intros [(q & [] & _)|[(q & A & B & C)|(q & [] & _)]]. right. exists q. auto. }
  { split; auto. intros y. cbn. destruct (k_shad k y) as [[p x]|]; reflexivity. }
  rewrite E'. exists k', l'. split; [reflexivity|].
  assert (MM : forall p, In p l' <-> (exists q, In q l /\ In (fst p) (rem s t q) /\ snd p = shift q (st p)) \/
                           (exists q, In q l /\ Z.max (st q) s < Z.min (en q) t /\ p = mid s t P q)).
  { intros p. rewrite (M' p). unfold mids. split; [intros [H|[(q & [] & _)|H]]; auto|tauto]. }
  assert (SB : forall q b, base q <> 0 -> r_base (shift q b) = base q + (b - st q)).
  { intros q b NB. unfold shift. destruct (Z.eqb_spec (base q) 0); [contradiction|]. reflexivity. }
  assert (SP : forall q b, r_prot (shift q b) = r_prot (snd q) /\ r_path (shift q b) = r_path (snd q)).
  { intros q b. unfold shift. destruct (base q =? 0); auto. }
  assert (NBS : forall q b, r_base (shift q b) <> 0 -> base q <> 0).
  { intros q b N Z0. rewrite shift_null in N by exact Z0. contradiction. }
  (* every new entry is a piece of an old one *)
  assert (PIECE : forall p, In p l' -> exists q, In q l /\ st q <= st p /\ st p < en p /\ en p <= en q /\ aligned (st p) /\ aligned (en p) /\
            r_base (snd p) = r_base (shift q (st p)) /\ r_path (snd p) = r_path (snd q) /\
            ((r_prot (snd p) = r_prot (snd q) /\ (en p <= s \/ t <= st p)) \/ (r_prot (snd p) = P /\ s <= st p /\ en p <= t))).
  { intros p I. apply MM in I as [(q & I & A & B)|(q & I & A & ->)]; exists q; (split; [exact I|]);
      destruct (la_al _ _ _ L q I) as (X1 & X2 & X3 & X4); pose proof (wf_pos _ _ W I) as PQ.
    - destruct p as [[b e] v]. change (st (b, e, v)) with b in *. change (en (b, e, v)) with e in *. cbn [fst snd] in A, B |- *. subst v. destruct (rem_in s t ST q b e PQ A) as (C1 & C2 & C3 & C4 & C5).
      destruct (SP q b) as [SP1 SP2].
      assert (aligned e).
      { unfold rem, remainder in A. apply in_app_iff in A as [A|A].
        - destruct (st q <? Z.min (en q) s); [|destruct A]. destruct A as [A|[]]. injection A as <- <-. destruct (Z.min_spec (en q) s) as [[_ ->]|[_ ->]]; auto.
        - destruct (Z.max (st q) t <? en q); [|destruct A]. destruct A as [A|[]]. injection A as <- <-. exact X2. }
      repeat (split; [solve [auto|lia|destruct C5 as [-> | ->]; auto]|]). left. auto.
    - destruct (SP q (Z.max (st q) s)) as [SP1 SP2]. change (st (mid s t P q)) with (Z.max (st q) s). change (en (mid s t P q)) with (Z.min (en q) t).
      cbn [mid fst snd with_prot r_base r_path r_prot].
      assert (aligned (Z.max (st q) s)) by (destruct (Z.max_spec (st q) s) as [[_ ->]|[_ ->]]; auto).
      assert (aligned (Z.min (en q) t)) by (destruct (Z.min_spec (en q) t) as [[_ ->]|[_ ->]]; auto).
      repeat (split; [solve [auto|lia]|]). right. lia || (split; [reflexivity|lia]). }
  assert (COV : forall q x, In q l -> st q <= x < en q -> exists p, In p l' /\ st p <= x < en p /\ r_base (snd p) = r_base (shift q (st p))).
  { intros q x I X. destruct (inr_dec s t x) as [H|H].
    - exists (mid s t P q). split; [apply MM; right; exists q; split; [exact I|split; [lia|reflexivity]]|].
      unfold mid, st at 1, en at 1. cbn. split; [lia|]. reflexivity.
    - destruct (rem_cover s t ST q x X H) as (b & e & J & LX). exists ((b, e), shift q b).
      split; [|split; [exact LX|reflexivity]]. apply MM. left. exists q. auto. }
  assert (HIT : forall x, hit s t l x = true <-> exists q, In q l /\ base q <> 0 /\ st q <= x < en q /\ s <= x < t).
  { intros x. unfold hit. rewrite existsb_exists. split; intros (q & I & H); exists q; (split; [exact I|]); apply own_iff in H || apply own_iff; exact H. }
  split; [|auto 10]. split.
  - exact W'.
  - intros p I. destruct (PIECE p I) as (q & J & C1 & C2 & C3 & C4 & C5 & _). destruct (la_al _ _ _ L q J) as (X1 & X2 & X3 & X4).
    split; [exact C4|]. split; [exact C5|]. lia.
  - intros p I NB. destruct (PIECE p I) as (q & J & C1 & C2 & C3 & C4 & C5 & C6 & C7 & _). rewrite C6, C7 in *.
    pose proof (NBS _ _ NB) as NQ. rewrite SB in * by exact NQ. destruct (la_shm _ _ _ L q J NQ) as (Y1 & Y2 & Y3 & Y4).
    destruct (la_al _ _ _ L q J) as (X1 & X2 & X3 & X4). rewrite K3.
    split; [|split; [lia|split; [lia|exact Y4]]]. apply al_add; auto. apply al_sub; auto.
  - intros p I PH. destruct (PIECE p I) as (q & J & C1 & C2 & C3 & C4 & C5 & C6 & C7 & _). rewrite C6, C7 in *.
    pose proof (la_heap _ _ _ L q J PH) as NQ. rewrite SB by exact NQ. destruct (la_shm _ _ _ L q J NQ) as (_ & Y2 & _). lia.
  - intros p x I NB X. destruct (PIECE p I) as (q & J & C1 & C2 & C3 & C4 & C5 & C6 & C7 & C8). rewrite C6 in *.
    pose proof (NBS _ _ NB) as NQ. rewrite SB by exact NQ. replace (base q + (st p - st q) + (x - st p)) with (base q + (x - st q)) by lia.
    rewrite K5, (la_map _ _ _ L q x J NQ) by lia. f_equal. f_equal. destruct (hit s t l x) eqn:H.
    + apply HIT in H as (_ & _ & _ & _ & H). destruct C8 as [[_ C8]|[C8 _]]; [lia|now rewrite C8].
    + destruct C8 as [[C8 _]|[C8 C9]]; [now rewrite C8|]. exfalso. assert (HH : hit s t l x = true) by (apply HIT; exists q; repeat (split; auto; try lia)). congruence.
  - intros y p x E1 HG. rewrite K5 in E1. destruct (k_shad k y) as [[p1 x1]|] eqn:Q; [|discriminate]. injection E1 as _ <-.
    destruct (la_rev _ _ _ L _ _ _ Q HG) as (q & I & NB & C & D). destruct (COV q x1 I C) as (p2 & I2 & X2 & B2). exists p2. rewrite B2, SB by exact NB.
    destruct (PIECE p2 I2) as (q2 & J & C1 & C2 & C3 & _).
    assert (q2 = q) by (apply (wf_unique l q2 q x1 W J I); lia). subst q2.
    destruct (la_shm _ _ _ L q I NB) as (_ & Y2 & _). split; [exact I2|]. split; [lia|]. split; [exact X2|lia].
  - intros x NZ HG. rewrite K4 in NZ. destruct (la_zero _ _ _ L x NZ HG) as (q & I & NB & C). destruct (COV q x I C) as (p2 & I2 & X2 & B2). exists p2.
    split; [exact I2|]. split; [|exact X2]. rewrite B2, SB by exact NB. destruct (PIECE p2 I2) as (q2 & J & C1 & C2 & C3 & _).
    assert (q2 = q) by (apply (wf_unique l q2 q x W J I); lia). subst q2.
    destruct (la_shm _ _ _ L q I NB) as (_ & Y2 & _). lia.
  - intros p x I X. destruct (PIECE p I) as (q & J & C1 & C2 & C3 & _). apply (la_out _ _ _ L q x J). lia.
Qed.
