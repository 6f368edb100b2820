(** Example processes. *)
From Verif Require Import Base IntervalModel IntervalSpec MemKernel MemModel MemSpec MemStart MemLayout.

Definition RO : prot := mkProt true false.
Definition NO : prot := mkProt false false.

(** A file at 0x400000 (two lines that say the same), no heap yet, and a stack of one page. *)
Definition maps_p : list pmap :=
  [((4194304, 4198400), (RO, false, Some (PFile 3))); ((4198400, 4202496), (RO, false, Some (PFile 3)));
   ((16773120, 16777216), (RW, false, Some PStack))].
Definition kern_p : kern := mkKern
  (over 4194304 4202496 (fun x => Some (RO, CPriv (x mod 7)))
  (over 16773120 16777216 (fun x => Some (RW, CPriv 9)) (fun _ => None))) (fun _ => None) (fun _ => 0) 0 (fun _ _ => 0).
(** The same with a heap of one page and a stack of two pages. *)
Definition maps_q : list pmap :=
  [((65536, 69632), (RW, false, Some PHeap)); ((4194304, 4202496), (RO, false, Some (PFile 3)));
   ((16769024, 16777216), (RW, false, Some PStack))].
Definition kern_q : kern := mkKern
  (over 65536 69632 (fun x => Some (RW, CPriv 4))
  (over 4194304 4202496 (fun x => Some (RO, CPriv (x mod 7)))
  (over 16769024 16777216 (fun x => Some (RW, CPriv 9)) (fun _ => None)))) (fun _ => None) (fun _ => 0) 0 (fun _ _ => 0).
Definition BS : Z := 1073741824.
Definition BM : Z := 2147483648.

Ltac ranges := unfold over; repeat match goal with |- context [inr ?a ?b ?x] => destruct (inr a b x) eqn:?; try (rewrite inr_iff in *); try (rewrite inr_no in *) end.
Lemma start_p : start kern_p maps_p 65536 8192 BS 65536 65536 16773120 16777216.
Proof.
  split; cbn [maps_p kern_p k_plug k_shad k_file].
  - cbn. unfold TASK_SIZE. repeat split; try lia; reflexivity.
  - intros x. ranges; (split; [intros N; try congruence|intros (s & e & a & I & X)]).
    + destruct (Z_lt_ge_dec x 4198400); [exists 4194304, 4198400|exists 4198400, 4202496]; eexists; (split; [cbn; eauto|lia]).
    + discriminate.
    + exists 16773120, 16777216. eexists. split; [cbn; eauto|lia].
    + discriminate.
    + cbn in I. repeat (destruct I as [E|I]; [injection E as <- <- <-; lia|]). destruct I.
  - intros x p y. ranges; congruence.
  - reflexivity.
  - reflexivity.
  - right. repeat (split; [reflexivity|]). lia.
  - lia.
  - intros x X. lia.
  - reflexivity.
  - intros x X. exists 9. ranges; first [reflexivity|lia].
  - unfold stack_start. lia.
  - intros x X. unfold stack_start in X. cbn. ranges; first [reflexivity|lia].
  - split; [reflexivity|lia].
  - split; [reflexivity|reflexivity].
  - left. reflexivity || (unfold BS; lia).
Qed.
Lemma start_q : start kern_q maps_q 0 536870912 BS 65536 69632 16769024 16777216.
Proof.
  split; cbn [maps_q kern_q k_plug k_shad k_file].
  - cbn. unfold TASK_SIZE. repeat split; try lia; reflexivity.
  - intros x. ranges; (split; [intros N; try congruence|intros (s & e & a & I & X)]); try discriminate.
    + exists 65536, 69632. eexists. split; [cbn; eauto|lia].
    + exists 4194304, 4202496. eexists. split; [cbn; eauto|lia].
    + exists 16769024, 16777216. eexists. split; [cbn; eauto|lia].
    + cbn in I. repeat (destruct I as [E|I]; [injection E as <- <- <-; lia|]). destruct I.
  - intros x p y. ranges; congruence.
  - reflexivity.
  - reflexivity.
  - left. reflexivity.
  - lia.
  - intros x X. exists 4. ranges; first [reflexivity|lia].
  - reflexivity.
  - intros x X. exists 9. ranges; first [reflexivity|lia].
  - unfold stack_start. lia.
  - intros x X. unfold stack_start in X. cbn. ranges; first [reflexivity|lia].
  - split; [reflexivity|lia].
  - split; [reflexivity|reflexivity].
  - left. unfold BS. lia.
Qed.
Definition native_p : native := native_start kern_p maps_p 65536 65536 16773120 16777216.
Definition native_q : native := native_start kern_q maps_q 65536 69632 16769024 16777216.
Definition state_p : option state := mapper_new maps_p 65536 8192 BS kern_p.
Definition state_q : option state := mapper_new maps_q 0 536870912 BS kern_q.

(** The state of the first process with its mapper. *)
Definition SS : Z := 8388608.
Definition SE : Z := 16773120.
Definition sp_k : kern := mkKern
  (over SS SE (fun x => Some (RW, CShm (SS + (x - SS)))) (k_plug kern_p))
  (over BS (BS + 8384512) (fun y => Some (RW, SS + (y - BS))) (fun _ => None)) (fun _ => 0) SE (fun _ _ => 0).
Definition sp_m : mapper := ltac:(let t := eval vm_compute in (option_map s_m state_p) in match t with Some ?m => exact m end).
Definition sp : state := mkSt sp_k sp_m.
Lemma state_p_eq : state_p = Some sp.
Proof. reflexivity. Qed.

Definition anon (a len : Z) (p : prot) (b : Z) : op := OMmap (Some a) len p (Anon 0) TPrivate false b.
Definition A : Z := 1048576.
Definition mapped (len : Z) (p : prot) : kern :=
  mmap_into_plugin A (A + len) p (mmap_into_shadow BM A (A + len) p (k_mmap A len p (Anon 0) TPrivate sp_k)).
Ltac map_of t := let t := eval vm_compute in (option_map (fun x => s_m (fst x)) t) in match t with Some ?m => exact m end.

Ltac nums := repeat match goal with
  | |- context [rup ?n] => let v := eval vm_compute in (rup n) in change (rup n) with v in *
  | H : context [rup ?n] |- _ => let v := eval vm_compute in (rup n) in change (rup n) with v in *
  end.
Ltac open_defs := cbv beta iota zeta delta [shadow_place mapped mmap_into_plugin mmap_into_shadow s_mmap s_munmap f_punch k_mmap k_munmap k_mprotect n_brk unmapped all_mapped
    native_p native_start set_plug set_shad set_file set_flen sp sp_k kern_p A BM BS SS SE stack_start stack_end s_k s_m
    kernel_allows shadow_allows anon native_step fst snd n_k n_heap k_plug k_shad k_file k_flen k_obj k_store put p_write backed andb aligned].
Ltac easy := first [unfold TASK_SIZE; lia|reflexivity|discriminate|congruence|exact Logic.I].
Ltac facts := open_defs; nums; repeat split; intros; try solve [easy|ranges; easy|left; ranges; easy].

(** mmap of 10 bytes, a store behind them, munmap, mmap of a page *)
Definition o1 := anon A 10 RW BM.
Definition o2 := OStore (A + 100) 7.
Definition o3 := OMunmap A 10 true.
Definition o4 := anon A 4096 RW BM.
Definition stale : list op := [o1; o2; o3; o4; OLoad (A + 100)].
Definition m1 : mapper := ltac:(map_of (step sp o1)).
Definition s1 : state := mkSt (mapped 10 RW) m1.
Definition s2 : state := mkSt (set_file (over (A + 100) (A + 101) (fun _ => 7) (k_file (s_k s1))) (s_k s1)) m1.
Definition s3 : state := mkSt (set_shad (over BM (BM + rup 10) (fun _ => None) (k_shad (s_k s2))) (f_punch A (A + 10) (k_munmap A 10 (s_k s2)))) sp_m.
Lemma stale_steps : step sp o1 = Some (s1, RAns (Some A)) /\ step s1 o2 = Some (s2, RNone) /\ step s2 o3 = Some (s3, ROk true).
Proof. repeat split; reflexivity. Qed.
Ltac last := match goal with |- match ?s with Some _ => _ | None => _ end => destruct s as [[? ?]|]; exact Logic.I end.
Lemma stale_run : allowed sp native_p stale.
Proof.
  destruct stale_steps as (E1 & E2 & E3). unfold stale. cbn [allowed]. rewrite E1, E2, E3.
  clear E1 E2 E3. unfold s1, s2, s3, o1, o2, o3, o4. split; [facts|]. split; [facts|]. split; [facts|]. split; [facts|]. split; [facts|]. split; [facts|]. split; [facts|]. split; [facts|].
  match goal with |- match ?s with Some _ => _ | None => _ end => destruct s as [[? ?]|]; [|exact Logic.I] end. split; [exact Logic.I|]. split; [exact Logic.I|]. last.
Qed.

(** One mmap, and calls after it. *)
Definition m_rw : mapper := ltac:(map_of (step sp (anon A 8192 RW BM))).
Definition m_ro : mapper := ltac:(map_of (step sp (anon A 8192 RO BM))).
Definition m_no : mapper := ltac:(map_of (step sp (anon A 8192 NO BM))).
Lemma mapped_rw : step sp (anon A 8192 RW BM) = Some (mkSt (mapped 8192 RW) m_rw, RAns (Some A)).
Proof. reflexivity. Qed.
Lemma mapped_ro : step sp (anon A 8192 RO BM) = Some (mkSt (mapped 8192 RO) m_ro, RAns (Some A)).
Proof. reflexivity. Qed.
Lemma mapped_no : step sp (anon A 8192 NO BM) = Some (mkSt (mapped 8192 NO) m_no, RAns (Some A)).
Proof. reflexivity. Qed.
Ltac first_map := match goal with
  | |- allowed sp native_p (anon A 8192 RW BM :: _) => cbn [allowed]; rewrite mapped_rw
  | |- allowed sp native_p (anon A 8192 RO BM :: _) => cbn [allowed]; rewrite mapped_ro
  | |- allowed sp native_p (anon A 8192 NO BM :: _) => cbn [allowed]; rewrite mapped_no
  end; split; [facts|split; [facts|]].
Ltac ends := split; [solve [facts]|split; [solve [facts]|last]].

Lemma mprotect_zero_run : allowed sp native_p [OMprotect A 0 RO MpOk].
Proof. cbn [allowed]. ends. Qed.
Lemma read_none_run : allowed sp native_p [anon A 8192 NO BM; ORead A 8 1].
Proof. first_map. ends. Qed.
Lemma write_ro_run : allowed sp native_p [anon A 8192 RO BM; OWrite A [1; 2] 1].
Proof. first_map. ends. Qed.
Lemma munmap_part_run : allowed sp native_p [anon A 8192 RW BM; OMunmap A 10 true; ORead (A + 20) 1 1].
Proof.
  first_map. split; [facts|]. split; [facts|]. match goal with |- match ?s with Some _ => _ | None => _ end => destruct s as [[? ?]|]; [|exact Logic.I] end. ends.
Qed.
Lemma mprotect_part_run : allowed sp native_p [anon A 8192 RO BM; OMprotect A 12288 RW (MpErr (A + 8192)); OWrite A [1; 2] 1].
Proof.
  first_map. split; [facts|].
  - right. facts.
  - split; [facts|]. match goal with |- match ?s with Some _ => _ | None => _ end => destruct s as [[? ?]|]; [|exact Logic.I] end. ends.
Qed.
Lemma brk_part_run : allowed sp native_p [OBrk 65546 true BM].
Proof. cbn [allowed]. ends. Qed.
Lemma brk_start_run : allowed sp native_p [OBrk 69632 true BM; OBrk 65536 true BM].
Proof.
  cbn [allowed]. split; [facts|]. split; [facts|]. match goal with |- match ?s with Some _ => _ | None => _ end => destruct s as [[? ?]|]; [|exact Logic.I] end. ends.
Qed.
Lemma write_partial_run : allowed sp native_p [OMmap (Some A) 4096 RW (FileAt 5 0) TShared false BM; OWrite (A + 4095) [1; 2] 1].
Proof.
  cbn [allowed]. split; [facts|]. split; [facts|]. match goal with |- match ?s with Some _ => _ | None => _ end => destruct s as [[? ?]|]; [|exact Logic.I] end. ends.
Qed.
(** mremap of the first half; mremap of read-only memory to another place *)
Lemma mremap_part_run : allowed sp native_p [anon A 8192 RW BM; OMremap A 4096 8192 true (Some (2 * A)) (2 * BM)].
Proof. first_map. split; [facts|split; [solve [facts]|last]].
  - exists RW, (CPriv 0). split; [rewrite over_in by lia; reflexivity|]. split; [intros x X; exists 0; rewrite over_in by lia; reflexivity|lia].
Qed.
Lemma mremap_ro_run : allowed sp native_p [anon A 8192 RO BM; OMremap A 8192 16384 true (Some (2 * A)) (2 * BM)].
Proof. first_map. split; [facts|split; [solve [facts]|last]].
  - exists RO, (CPriv 0). split; [rewrite over_in by lia; reflexivity|]. split; [intros x X; exists 0; rewrite over_in by lia; reflexivity|lia].
Qed.

(** Supported calls: mmap, a read and a write by system calls, mprotect, munmap. *)
Definition quiet : list op := [anon A 8192 RW BM; ORead A 8 1; OMprotect (A + 4096) 4096 RO MpOk; OWrite A [1; 2] 1; OMunmap A 8192 true].
Lemma quiet_run : runs SE sp native_p quiet.
Proof.
  unfold quiet. constructor; [facts|facts|reflexivity|]. intros sa ra _.
  constructor; [exact Logic.I|exact Logic.I|..].
  { cbn [supported]. split; [lia|]. intros x p c X E. revert E X. open_defs. nums. ranges; intros E X; first [lia|injection E as <- _; reflexivity]. }
  intros sb rb _. constructor; [facts|exact Logic.I|split; [reflexivity|lia]|]. intros sc rc _.
  constructor; [exact Logic.I|exact Logic.I|..].
  { cbn [supported]. split; [lia|]. split.
    - intros x p c X E. revert E X. open_defs. nums. cbn [length]. ranges; intros E X; first [lia|injection E as <- _; reflexivity].
    - left. intros x X. revert X. open_defs. nums. cbn [length]. ranges; intros X; first [lia|discriminate]. }
  intros sd rd _. constructor; [facts|exact Logic.I|reflexivity|]. intros. constructor.
Qed.
(** A longer run. *)
Definition busy : list op :=
  [OBrk 69632 true 3000000512; OStore 65600 77; OBrk 73728 true 3000004608; OLoad 65600; OStore 73000 5; ORead 65600 4 1;
   anon A 8192 RW BM; OWrite (A + 4094) [1; 2; 3; 4] 1; OString (A + 4094) 100; OMprotect (A + 4096) 4096 RO MpOk; OStore (A + 4097) 1;
   anon (2 * A) 8192 RW (2 * BM); OStore (2 * A + 5) 6; OMremap (2 * A) 8192 16384 true (Some (2 * A)) (3 * BM);
   OPrefix (2 * A + 16380) 8 1; OLoad (2 * A + 5); ORead (2 * A + 16380) 8 1;
   OMunmap A 4096 true; OLoad (A + 4095); OLoad (A + 4096); OStore 16777000 3; OLoad 16777000; OStore 8388608 2; ORead 8388608 2 1;
   OLoad 4194310; OBrk 69632 true 4096; OLoad 73000; OLoad 65600].
