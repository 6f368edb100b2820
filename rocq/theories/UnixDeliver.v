(** What is written to a unix socket is what its peer reads. *)
From Verif Require Import Base FMap UnixModel UnixSpec UnixFacts UnixInv UnixWorld UnixNotes UnixTraces.

(** The data a socket's writes took, write by write; and its reads: the room, the data, the source. *)
Definition sent1 (x : Z) (e : event) : list (list Z) :=
  match e with
  | (_, Send z _ _ _ _ data _, RSent n) => if z =? x then [firstn (Z.to_nat n) data] else []
  | _ => []
  end.
Definition sends (x : Z) (evs : list event) : list (list Z) := concat (map (sent1 x) evs).
Definition read1 (y : Z) (e : event) : list (Z * list Z * option (list Z)) :=
  match e with
  | (_, Recv z _ _ _ _ cap _, RRecv _ out src _) => if z =? y then [(cap, out, src)] else []
  | _ => []
  end.
Definition reads (y : Z) (evs : list event) : list (Z * list Z * option (list Z)) := concat (map (read1 y) evs).
Definition data_of (r : Z * list Z * option (list Z)) : list Z := snd (fst r).
(** A read of a message returns its first bytes. *)
Definition reads_front (m : list Z) (r : Z * list Z * option (list Z)) : Prop := data_of r = firstn (Z.to_nat (fst (fst r))) m.
(** The datagrams addressed to [y] by sends that were accepted, with their source. *)
Definition mailed1 (y : Z) (e : event) : list (option (list Z) * list Z) :=
  match e with
  | (S0, Send x a _ _ _ data _, RSent n) =>
      match ks S0 x with
      | Some k => match k_type k, destination S0 k a with
                  | UDgram, inl z => if z =? y then [(k_name k, firstn (Z.to_nat n) data)] else []
                  | _, _ => [] end
      | None => []
      end
  | _ => []
  end.
Definition mailed (y : Z) (evs : list event) : list (option (list Z) * list Z) := concat (map (mailed1 y) evs).

Lemma sends_snoc x evs e : sends x (evs ++ [e]) = sends x evs ++ sent1 x e.
Proof. unfold sends. rewrite map_app, concat_app. cbn. rewrite app_nil_r. reflexivity. Qed.
Lemma reads_snoc x evs e : reads x (evs ++ [e]) = reads x evs ++ read1 x e.
Proof. unfold reads. rewrite map_app, concat_app. cbn. rewrite app_nil_r. reflexivity. Qed.
Lemma mailed_snoc x evs e : mailed x (evs ++ [e]) = mailed x evs ++ mailed1 x e.
Proof. unfold mailed. rewrite map_app, concat_app. cbn. rewrite app_nil_r. reflexivity. Qed.

(* ------------------------------------------------------------------ gone is for ever *)
Lemma step_gone S o S' r x : KInv S -> s_step S o = Some (S', r) -> forall k, ks S x = Some k -> gone k = true ->
  exists k', ks S' x = Some k' /\ gone k' = true.
Proof.
  intros KI H k K G. destruct (is_io o) eqn:IO.
  - destruct o; try discriminate IO.
    + pose proof (step_send _ _ _ _ _ _ _ _ _ _ H) as E. destruct r; try contradiction; try (subst S'; eauto; fail).
      destruct E as (k1 & y & dd & _ & _ & _ & _ & Y & GD & _ & _ & _ & _ & ->). cbn. destruct (Z.eqb_spec x y); [|eauto].
      subst. congruence.
    + pose proof (step_recv _ _ _ _ _ _ _ _ _ _ H) as E. destruct r; try contradiction; try (subst S'; eauto; fail).
      destruct E as (k1 & Y & _ & _ & _ & E). unfold gone in G.
      destruct (Z.eq_dec x x0) as [->|N]; [replace k1 with k in E by congruence; destruct (k_role k); try contradiction; discriminate G|].
      assert (N' : (x =? x0) = false) by (apply Z.eqb_neq; auto).
      destruct (k_role k1); try contradiction.
      * destruct E as (_ & E). destruct (k_in k1) as [|[[a1 b1] m] rest]; [destruct E as (_ & -> & _); eauto|].
        destruct (k_type k1); destruct E as (_ & _ & _ & ->); cbn; rewrite N'; eauto.
      * destruct E as (f1 & w1 & m & rest & _ & _ & E). destruct (k_type k1); destruct E as (_ & _ & _ & ->); cbn; rewrite N'; eauto.
  - pose proof (step_quiet _ _ _ _ KI IO H x) as Q. unfold quiet_at in Q. rewrite K in Q. destruct (ks S' x) as [k'|]; [|contradiction].
    destruct Q as (_ & L & _). exists k'. split; auto. unfold gone in *. destruct (k_role k); try discriminate G.
    destruct L as [-> |[-> |[]]]; auto.
Qed.

Lemma later_conn r x pn : later r (KConn x pn) -> r = KConn x pn \/ r = KNew.
Proof. intros [H|[H|H]]; [auto|discriminate H|]. destruct r; try contradiction. auto. Qed.
Lemma later_gram r t : later r (KGram t) -> exists t', r = KGram t'.
Proof. intros [H|[H|H]]; [subst; eauto|discriminate H|]. destruct r; try contradiction. eauto. Qed.
Lemma concat_bytes x (l : list Z) : concat (map snd (map (fun b => (x : Z, @None (list Z), [b])) l)) = l.
Proof. induction l as [|b l IH]; cbn; [auto|]. f_equal. exact IH. Qed.

(** Sockets that neither sent nor read. *)
Definition idle (x : Z) (evs : list event) : Prop := sends x evs = [] /\ reads x evs = [] /\ mailed x evs = [].
Definition carried (t : utype) (Gx : bool) (l : list (Z * option (list Z) * list Z)) (pn : option (list Z))
    (sx : list (list Z)) (ry : list (Z * list Z * option (list Z))) : Prop :=
  Forall (fun r => snd r = pn) ry /\
  match t with
  | UStream => concat sx = concat (map data_of ry) ++ concat (map snd l)
  | _ => exists taken r1 r2, sx = taken ++ map snd l /\ ry = r1 ++ r2 /\ Forall2 reads_front taken r1 /\
           Forall (fun r => data_of r = []) r2 /\ (r2 <> [] -> l = [] /\ Gx = true)
  end.
Definition delivers (S : kstate) (evs : list event) : Prop := forall y,
  (kfree S y -> idle y evs) /\
  (forall k, ks S y = Some k ->
     match k_role k with
     | KConn x pn => carried (k_type k) (is_gone S x) (k_in k) pn (sends x evs) (reads y evs)
     | KGram _ => exists taken, mailed y evs = taken ++ map (fun e => (snd (fst e), snd e)) (k_in k) /\
                    Forall2 (fun m r => reads_front (snd m) r /\ snd r = fst m) taken (reads y evs)
     | _ => True
     end).
Lemma carried_gone t g l pn sx ry : carried t g l pn sx ry -> carried t true l pn sx ry.
Proof.
  intros (A & B). split; auto. destruct t; auto; destruct B as (tk & r1 & r2 & B1 & B2 & B3 & B4 & B5); exists tk, r1, r2;
    repeat (split; [assumption|]); intro N; split; auto; apply B5; auto.
Qed.
Lemma carried_new t g pn : carried t g [] pn [] [].
Proof. split; [constructor|]. destruct t; auto; exists [], [], []; repeat (split; auto); contradiction. Qed.
Lemma carried_send t l pn sx ry x m : carried t false l pn sx ry ->
  carried t false (l ++ parcels t x None m) pn (sx ++ [m]) ry.
Proof.
  intros (A & B). split; auto. destruct t; cbn [parcels].
  - rewrite map_app, !concat_app, B, concat_bytes. cbn. rewrite app_nil_r, app_assoc. reflexivity.
  - destruct B as (tk & r1 & r2 & B1 & B2 & B3 & B4 & B5). exists tk, r1, r2. rewrite map_app, B1, app_assoc. repeat (split; [auto; fail|]).
    intro N. destruct (B5 N). discriminate.
  - destruct B as (tk & r1 & r2 & B1 & B2 & B3 & B4 & B5). exists tk, r1, r2. rewrite map_app, B1, app_assoc. repeat (split; [auto; fail|]).
    intro N. destruct (B5 N). discriminate.
Qed.

Lemma delivers_step S evs o S' r : KInv S -> KInv S' -> delivers S evs -> clean o -> s_step S o = Some (S', r) ->
  delivers S' (evs ++ [(S, o, r)]).
Proof.
  intros KI KI' D _ H y. rewrite ?sends_snoc. destruct (is_io o) eqn:IO.
  - destruct o; try discriminate IO.
    + pose proof (step_send _ _ _ _ _ _ _ _ _ _ H) as E.
      assert (RD : forall z, reads z (evs ++ [(S, Send x a control flags_ok dontwait data fault, r)]) = reads z evs).
      { intro z. rewrite reads_snoc. cbn. apply app_nil_r. }
      assert (NIL : S' = S -> (forall n, r <> RSent n) -> delivers S (evs ++ [(S, Send x a control flags_ok dontwait data fault, r)])).
      { intros -> NR z. destruct (D z) as (D1 & D2). assert (S1 : forall z, sends z (evs ++ [(S, Send x a control flags_ok dontwait data fault, r)]) = sends z evs).
        { intro z0. rewrite sends_snoc. destruct r; cbn; try apply app_nil_r. elim (NR n eq_refl). }
        assert (M1 : forall z, mailed z (evs ++ [(S, Send x a control flags_ok dontwait data fault, r)]) = mailed z evs).
        { intro z0. rewrite mailed_snoc. destruct r; cbn; try apply app_nil_r. elim (NR n eq_refl). }
        split; [intro F; destruct (D1 F) as (I1 & I2 & I3); unfold idle; rewrite S1, RD, M1; auto|].
        intros k K. specialize (D2 k K). destruct (k_role k); auto; rewrite ?S1, ?RD, ?M1; auto. }
      destruct r as [|sx|p1 p2|ax afr|n|rn rd rf rt|ad|e|z on]; try contradiction; try (rewrite E in *; apply NIL; [reflexivity|discriminate]). clear NIL.
      destruct E as (k & yy & dd & X & FD & DE & NXY & Y & GD & AC & _ & _ & UN & ES).
      set (m := firstn (Z.to_nat n) data) in *.
      assert (SD : forall z, sends z (evs ++ [(S, Send x a control flags_ok dontwait data fault, RSent n)]) = sends z evs ++ (if x =? z then [m] else [])).
      { intro z. rewrite sends_snoc. reflexivity. }
      assert (MD : forall z, mailed z (evs ++ [(S, Send x a control flags_ok dontwait data fault, RSent n)]) =
        mailed z evs ++ (match k_type k with UDgram => if yy =? z then [(k_name k, m)] else [] | _ => [] end)).
      { intro z. rewrite mailed_snoc. cbn [mailed1]. rewrite X, DE. reflexivity. }
      assert (GX : gone k = false) by (apply (ki_fd S KI x k X FD)).
      assert (KX : forall z pn, k_role k = KConn z pn -> yy = z /\ exists pn', k_role dd = KConn x pn').
      { intros z pn RK. unfold destination in DE. rewrite RK in DE. assert (z = yy). { destruct a as [[p|]|]; [destruct (k_type k); try discriminate DE|discriminate DE|]; congruence. }
        subst z. split; auto. destruct (ki_conn S KI x k yy pn X RK) as (_ & _ & _ & ky & KY & _ & [P|P]); [|unfold gone in GD].
        - replace dd with ky by congruence. exact P.
        - replace ky with dd in P by congruence. rewrite P in GD. discriminate. }
      assert (KG : forall t, k_role k = KGram t -> k_type k = UDgram /\ k_type dd = UDgram).
      { intros t RK. pose proof (ki_kind S KI x k X) as TK. rewrite RK in TK. split; auto. unfold destination in DE. rewrite RK in DE.
        destruct a as [[p|]|]; [| destruct t as [[? ?]|]; discriminate DE|].
        - destruct t as [[? ?]|]; unfold owner in DE; destruct p as [|[| |] p]; try discriminate DE; destruct (ks_names S (k_type k) p) eqn:NM; try discriminate DE;
            injection DE as ->; destruct (ki_name S KI _ _ _ NM) as (k1 & K1 & T1 & _); congruence.
        - destruct t as [[z n0]|]; [|discriminate DE]. injection DE as ->. destruct (ki_to S KI x k yy n0 X RK) as (k1 & K1 & T1). congruence. }
      assert (CON : (exists z pn, k_role k = KConn z pn) \/ exists t, k_role k = KGram t).
      { unfold unconnected in UN. destruct (k_role k); try discriminate UN; eauto. }
      destruct (D y) as (D1 & D2).
      assert (KSE : ks S' y = if y =? yy then Some (k_set_in dd (k_in dd ++ parcels (k_type k) x (k_name k) m)) else ks S y) by (rewrite ES; reflexivity).
      assert (DDR : match k_role dd with KConn _ _ | KGram _ => True | _ => False end).
      { destruct CON as [(z & pn & RK)|(t & RK)].
        - destruct (KX z pn RK) as (_ & pn' & ->). exact Logic.I.
        - destruct (KG t RK) as (_ & TD). pose proof (ki_kind S KI yy dd Y) as KD. unfold gone in GD. destruct (k_role dd); try congruence; exact Logic.I. }
      assert (GN : forall z, is_gone S' z = is_gone S z).
      { intro z. rewrite ES. unfold is_gone. cbn. destruct (Z.eqb_spec z yy) as [->|]; auto. rewrite Y. reflexivity. }
      split.
      * intro F. unfold kfree in F. rewrite KSE in F. destruct (Z.eqb_spec y yy) as [->|NY].
        { cbn in F. destruct (k_role dd); contradiction. }
        destruct (D1 F) as (I1 & I2 & I3). unfold idle. rewrite SD, RD, MD, I1, I2, I3. split; [|split]; auto.
        -- destruct (Z.eqb_spec x y) as [->|]; auto. rewrite X in F. destruct CON as [(z & pn & RK)|(t & RK)]; rewrite RK in F; contradiction.
        -- destruct (k_type k); auto. destruct (Z.eqb_spec yy y); [congruence|auto].
      * intros k' K'. rewrite KSE in K'. destruct (Z.eqb_spec y yy) as [->|NY].
        -- injection K' as <-. cbn [k_role k_set_in k_in k_type]. specialize (D2 dd Y). destruct (k_role dd) as [| |z pn|t|] eqn:RD'; try contradiction.
           ++ destruct CON as [(z0 & pn0 & RK)|(t & RK)].
              ** destruct (KX z0 pn0 RK) as (_ & pn' & R2). injection R2 as -> _. rewrite SD, RD, Z.eqb_refl, GN.
                 destruct (ki_conn S KI x k z0 pn0 X RK) as (_ & TD & _ & ky & KY & TE & _). destruct (KX z0 pn0 RK) as (EZ & _). subst z0.
                 assert (ky = dd) by congruence. subst ky. rewrite <- TE.
                 assert (EG : is_gone S x = false) by (unfold is_gone; rewrite X; exact GX). rewrite EG in *.
                 replace (parcels (k_type dd) x (k_name k) m) with (parcels (k_type dd) x None m) by (rewrite TE; destruct (k_type k); try reflexivity; congruence).
                 apply carried_send. exact D2.
              ** exfalso. destruct (KG t RK) as (_ & TD). pose proof (ki_kind S KI yy dd Y) as KD. rewrite RD' in KD. congruence.
           ++ assert (exists t', k_role k = KGram t') as (t' & RK).
              { destruct CON as [(z0 & pn0 & RK)|T]; auto. destruct (KX z0 pn0 RK) as (_ & pn' & R2). congruence. }
              destruct (KG t' RK) as (TK & TD). rewrite MD, RD, TK, Z.eqb_refl. destruct D2 as (tk & D3 & D4). exists tk. rewrite D3, map_app, app_assoc. split; auto.
        -- specialize (D2 k' K'). destruct (k_role k') as [| |z pn|t|] eqn:RK'; auto.
           ++ rewrite SD, RD, GN. destruct (Z.eqb_spec x z) as [->|]; [|rewrite app_nil_r; auto]. exfalso.
              destruct (ki_conn S KI y k' z pn K' RK') as (_ & _ & _ & ky & KY & _ & [(pn' & P)|P]).
              ** assert (ky = k) by congruence. subst ky. destruct (KX y pn' P). congruence.
              ** assert (ky = k) by congruence. subst ky. unfold gone in GX. rewrite P in GX. discriminate.
           ++ rewrite MD, RD. replace (yy =? y) with false by (symmetry; apply Z.eqb_neq; congruence). destruct (k_type k); rewrite app_nil_r; auto.
    + pose proof (step_recv _ _ _ _ _ _ _ _ _ _ H) as E.
      set (ev := (S, Recv x control flags_ok dontwait trunc cap fault, r)) in *.
      assert (SD : forall z, sends z (evs ++ [ev]) = sends z evs) by (intro z; rewrite sends_snoc; apply app_nil_r).
      assert (MD : forall z, mailed z (evs ++ [ev]) = mailed z evs) by (intro z; rewrite mailed_snoc; apply app_nil_r).
      assert (SAME : forall z, reads z (evs ++ [ev]) = reads z evs -> ks S' z = ks S z -> (forall u, is_gone S' u = is_gone S u) ->
        (kfree S' z -> idle z (evs ++ [ev])) /\ (forall k, ks S' z = Some k -> match k_role k with
         | KConn x pn => carried (k_type k) (is_gone S' x) (k_in k) pn (sends x (evs ++ [ev])) (reads z (evs ++ [ev]))
         | KGram _ => exists taken, mailed z (evs ++ [ev]) = taken ++ map (fun e => (snd (fst e), snd e)) (k_in k) /\
                    Forall2 (fun m r => reads_front (snd m) r /\ snd r = fst m) taken (reads z (evs ++ [ev]))
         | _ => True end)).
      { intros z RZ KZ GZ. destruct (D z) as (D1 & D2). unfold kfree, idle. rewrite KZ, SD, MD, RZ. split; [exact D1|].
        intros k K. specialize (D2 k K). destruct (k_role k); auto. rewrite SD, GZ. auto. }
      destruct r as [|sx|p1 p2|ax afr|n|n out src tr|ad|e|z on]; try contradiction; try (subst S'; apply SAME; auto; rewrite reads_snoc; apply app_nil_r).
      destruct E as (k & X & FD & _ & _ & E).
      assert (RD : forall z, reads z (evs ++ [ev]) = reads z evs ++ if x =? z then [(cap, out, src)] else []).
      { intro z. rewrite reads_snoc. reflexivity. }
      assert (EX : exists l, (forall z, ks S' z = if z =? x then Some (k_set_in k l) else ks S z) /\
        match k_role k with
        | KConn x0 pn => src = pn /\ ((k_in k = [] /\ l = [] /\ out = [] /\ is_gone S x0 = true) \/
             exists a b m rest, k_in k = (a, b, m) :: rest /\ match k_type k with
               | UStream => out = concat (map snd (firstn (Z.to_nat cap) (k_in k))) /\ l = skipn (Z.to_nat cap) (k_in k)
               | _ => out = firstn (Z.to_nat cap) m /\ l = rest end)
        | KGram _ => exists a m rest, k_in k = (a, src, m) :: rest /\ out = firstn (Z.to_nat cap) m /\ l = rest
        | _ => False end).
      { pose proof (ki_kind S KI x k X) as TK. destruct (k_role k) as [| |z0 pn|t|] eqn:RK; try contradiction.
        - destruct E as (-> & E). destruct (k_in k) as [|[[a b] m] rest] eqn:KIN.
          + destruct E as (G & -> & -> & _). exists []. split; [|split; auto]. intro z. destruct (Z.eqb_spec z x) as [->|]; auto. rewrite X. f_equal.
            unfold k_set_in. destruct k; cbn in *. rewrite KIN. reflexivity.
          + destruct (k_type k); destruct E as (-> & _ & _ & ->); eexists; (split; [intro z; reflexivity|]); split; auto; right; exists a, b, m, rest; auto.
        - destruct E as (from & who & m & rest & KIN & -> & E). rewrite TK in E. destruct E as (-> & _ & _ & ->). exists rest. split; [reflexivity|]. exists who, m, rest. auto. }
      destruct EX as (l & KS & EX).
      assert (GN : forall u, is_gone S' u = is_gone S u).
      { intro u. unfold is_gone. rewrite KS. destruct (Z.eqb_spec u x) as [->|]; auto. rewrite X. reflexivity. }
      destruct (Z.eq_dec y x) as [->|N].
      2: { apply SAME; auto; [rewrite RD, (proj2 (Z.eqb_neq x y)), app_nil_r; auto|]. rewrite KS, (proj2 (Z.eqb_neq y x)); auto. }
      clear SAME E. destruct (D x) as (D1 & D2). specialize (D2 k X).
      assert (KX : ks S' x = Some (k_set_in k l)) by (rewrite KS, Z.eqb_refl; reflexivity). split.
      * intro F. unfold kfree in F. rewrite KX in F. cbn in F. destruct (k_role k); contradiction.
      * intros k' K'. rewrite KX in K'. injection K' as <-. cbn [k_role k_type k_in k_set_in].
        destruct (k_role k) as [| |z0 pn|t|] eqn:RK; try contradiction.
        -- destruct EX as (-> & EX). rewrite SD, RD, Z.eqb_refl, GN. destruct D2 as (D2 & D3). split; [apply Forall_app; auto|].
           destruct EX as [(E1 & -> & -> & G)|(a & b & m & rest & KIN & E)].
           ++ rewrite E1 in D3. destruct (k_type k).
              ** rewrite map_app, concat_app. cbn. rewrite !app_nil_r. rewrite D3. cbn. rewrite app_nil_r. reflexivity.
              ** destruct D3 as (tk & r1 & r2 & B1 & B2 & B3 & B4 & B5). exists tk, r1, (r2 ++ [(cap, [], pn)]). rewrite B2, app_assoc. split; auto. split; auto.
                 split; auto. split; [apply Forall_app; auto|]. auto.
              ** destruct D3 as (tk & r1 & r2 & B1 & B2 & B3 & B4 & B5). exists tk, r1, (r2 ++ [(cap, [], pn)]). rewrite B2, app_assoc. split; auto. split; auto.
                 split; auto. split; [apply Forall_app; auto|]. auto.
           ++ assert (MSG : forall tt, tt <> UStream -> k_type k = tt -> out = firstn (Z.to_nat cap) m -> l = rest ->
                match tt with UStream => True | _ => exists taken r1 r2, sends z0 evs = taken ++ map snd l /\ reads x evs ++ [(cap, out, pn)] = r1 ++ r2 /\
                   Forall2 reads_front taken r1 /\ Forall (fun r => data_of r = []) r2 /\ (r2 <> [] -> l = [] /\ is_gone S z0 = true) end).
              { intros tt NT TT -> ->. rewrite TT in D3. destruct tt; auto; destruct D3 as (tk & r1 & r2 & B1 & B2 & B3 & B4 & B5);
                  (assert (r2 = []) by (destruct r2; auto; destruct B5; [discriminate|congruence])); subst r2; rewrite app_nil_r in B2; subst r1;
                  exists (tk ++ [m]), (reads x evs ++ [(cap, firstn (Z.to_nat cap) m, pn)]), [];
                  rewrite B1, KIN, <- app_assoc, app_nil_r; (split; [reflexivity|]); (split; [reflexivity|]); (split; [apply Forall2_app; auto; repeat constructor|]); split; auto; contradiction. }
              destruct (k_type k) eqn:TK; [|apply (MSG UDgram); auto; try discriminate; apply E|apply (MSG USeqPacket); auto; try discriminate; apply E].
              destruct E as (-> & ->). rewrite D3, map_app, concat_app. cbn [map concat data_of fst snd]. rewrite app_nil_r, <- app_assoc. f_equal.
              rewrite <- concat_app, <- map_app, firstn_skipn. reflexivity.
        -- destruct EX as (a & m & rest & KIN & -> & ->). rewrite MD, RD, Z.eqb_refl. destruct D2 as (tk & D3 & D4). exists (tk ++ [(src, m)]).
           rewrite D3, KIN, <- app_assoc. split; [reflexivity|]. apply Forall2_app; auto. repeat constructor.
  - pose proof (step_quiet _ _ _ _ KI IO H) as Q.
    assert (SD : forall z, sends z (evs ++ [(S, o, r)]) = sends z evs) by (intro z; rewrite sends_snoc; destruct o; try discriminate IO; apply app_nil_r).
    assert (RD : forall z, reads z (evs ++ [(S, o, r)]) = reads z evs) by (intro z; rewrite reads_snoc; destruct o; try discriminate IO; apply app_nil_r).
    assert (MD : forall z, mailed z (evs ++ [(S, o, r)]) = mailed z evs) by (intro z; rewrite mailed_snoc; destruct o; try discriminate IO; apply app_nil_r).
    destruct (D y) as (D1 & D2). pose proof (Q y) as Qy. unfold quiet_at in Qy. split.
    + intro F. unfold idle. rewrite SD, RD, MD. apply D1. unfold kfree in *. destruct (ks S y) as [k|]; auto. destruct (ks S' y) as [k'|]; [|contradiction].
      destruct Qy as (_ & L & _). destruct (k_role k'); try contradiction; (destruct L as [L|[L|L]]; [rewrite <- L; auto|discriminate L|destruct (k_role k); auto]).
    + intros k' K'. rewrite K' in Qy. destruct (k_role k') as [| |x pn|t|] eqn:RK'; auto.
      * rewrite SD, RD. destruct (ks S y) as [k|] eqn:K.
        -- destruct Qy as (TE & L & IN & NEW). assert (IN' : k_in k' = k_in k). { destruct IN as [IN|(G & _)]; auto. unfold gone in G. rewrite RK' in G. discriminate. }
           destruct (later_conn _ _ _ L) as [RK|RK].
           ++ specialize (D2 k eq_refl). rewrite RK in D2. rewrite TE, IN'. destruct (is_gone S' x) eqn:G'.
              ** eapply carried_gone; eauto.
              ** destruct (is_gone S x) eqn:G; auto. exfalso. destruct (ki_conn S KI y k x pn K RK) as (_ & _ & _ & ky & KY & _ & _).
                 unfold is_gone in G. rewrite KY in G. destruct (step_gone S o S' r x KI H ky KY G) as (k2 & K2 & G2). unfold is_gone in G'. rewrite K2 in G'. congruence.
           ++ pose proof (NEW x pn RK eq_refl) as NX. destruct (D x) as (DX & _). assert (FX : kfree S x) by (unfold kfree; rewrite NX; auto).
              assert (FY : kfree S y) by (unfold kfree; rewrite K, RK; auto).
              destruct (DX FX) as (-> & _ & _), (D1 FY) as (_ & -> & _). pose proof (ki_empty S KI y k K) as EM. rewrite RK in EM. rewrite IN', EM. apply carried_new.
        -- destruct Qy as (IN & _ & NEW). assert (FY : kfree S y) by (unfold kfree; rewrite K; auto). specialize (NEW x pn eq_refl).
           assert (FX : kfree S x) by (unfold kfree; destruct (ks S x) as [kx|]; auto; rewrite NEW; auto).
           destruct (D x) as (DX & _). destruct (DX FX) as (-> & _ & _), (D1 FY) as (_ & -> & _). rewrite IN. apply carried_new.
      * rewrite MD, RD. destruct (ks S y) as [k|] eqn:K.
        -- destruct Qy as (TE & L & IN & NEW). destruct IN as [IN|(G & _)]; [|unfold gone in G; rewrite RK' in G; discriminate].
           destruct (later_gram _ _ L) as (t' & RK). specialize (D2 k eq_refl). rewrite RK in D2. rewrite IN. exact D2.
        -- destruct Qy as (IN & _). assert (FY : kfree S y) by (unfold kfree; rewrite K; auto). destruct (D1 FY) as (_ & -> & ->). rewrite IN. exists []. split; constructor.
Qed.
Lemma delivers_init : delivers k_init [].
Proof. intro y. split; [intros _; repeat split|]. intros k K. discriminate K. Qed.
Theorem delivers_all ops S evs : Forall clean ops -> history k_init ops = Some (S, evs) -> delivers S evs.
Proof. intros C H. eapply (history_ind delivers); eauto using delivers_init. intros. eapply delivers_step; eauto. Qed.
