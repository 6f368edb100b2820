(** From the start of a process to the end. *)
From Verif Require Import Base IntervalModel IntervalSpec IntervalProofs MemKernel MemModel MemSpec MemStart MemLayout MemUnmap MemProtect MemRel MemSteps MemAccess MemGrow MemRemap MemBrk MemRun MemInit.

Lemma start_law k maps brk0 bh bs hs he cs ce : start k maps brk0 bh bs hs he cs ce -> exists s, mapper_new maps brk0 bh bs k = Some s /\
  mm_heap (s_m s) = (hs, he) /\ forall x, seen (s_k s) x = if inr (stack_start ce) cs x then Some (RW, Some 0) else seen k x.
Proof.
  intros S. destruct (init_ok k maps brk0 bh bs hs he cs ce S (stack_end ce) ltac:(lia)) as (s & l & E & R). exists s. split; [exact E|].
  split; [exact (re_heap _ _ _ _ R)|]. intros x. rewrite (seen_ok _ _ _ _ x R). unfold seen, native_start. cbn [n_k set_plug k_plug].
  unfold over. destruct (inr (stack_start ce) cs x); [reflexivity|]. destruct (k_plug k x) as [[p c]|]; [|reflexivity]. cbn. destruct c; reflexivity.
Qed.
Lemma life k maps brk0 bh bs hs he cs ce s top ops : start k maps brk0 bh bs hs he cs ce -> mapper_new maps brk0 bh bs k = Some s -> top <= stack_end ce ->
  runs top s (native_start k maps hs he cs ce) ops ->
  exists s', final s ops = Some s' /\ answers s ops = Some (native_answers (native_start k maps hs he cs ce) ops) /\
    exists l', rel top s' (native_final (native_start k maps hs he cs ce) ops) l'.
Proof.
  intros S E TP RU. destruct (init_ok k maps brk0 bh bs hs he cs ce S top TP) as (s0 & l & E0 & R). rewrite E in E0. injection E0 as <-.
  exact (run_ok top ops s _ l R RU).
Qed.
Lemma same_law k maps brk0 bh bs hs he cs ce s top ops : start k maps brk0 bh bs hs he cs ce -> mapper_new maps brk0 bh bs k = Some s -> top <= stack_end ce ->
  runs top s (native_start k maps hs he cs ce) ops -> answers s ops = Some (native_answers (native_start k maps hs he cs ce) ops).
Proof. intros S E TP RU. destruct (life _ _ _ _ _ _ _ _ _ s top ops S E TP RU) as (s' & _ & A & _). exact A. Qed.
Lemma contents_law k maps brk0 bh bs hs he cs ce s top ops : start k maps brk0 bh bs hs he cs ce -> mapper_new maps brk0 bh bs k = Some s -> top <= stack_end ce ->
  runs top s (native_start k maps hs he cs ce) ops ->
  exists s', final s ops = Some s' /\ forall x, seen (s_k s') x = seen (n_k (native_final (native_start k maps hs he cs ce) ops)) x.
Proof.
  intros S E TP RU. destruct (life _ _ _ _ _ _ _ _ _ s top ops S E TP RU) as (s' & F & _ & l' & R). exists s'. split; [exact F|].
  intros x. exact (seen_ok _ _ _ _ x R).
Qed.
Lemma mirrors_law k maps brk0 bh bs hs he cs ce s top ops : start k maps brk0 bh bs hs he cs ce -> mapper_new maps brk0 bh bs k = Some s -> top <= stack_end ce ->
  runs top s (native_start k maps hs he cs ce) ops -> exists s', final s ops = Some s' /\ mirrors (s_k s').
Proof.
  intros S E TP RU. destruct (life _ _ _ _ _ _ _ _ _ s top ops S E TP RU) as (s' & F & _ & l' & R). exists s'. split; [exact F|].
  exact (mirror_ok _ _ _ _ R).
Qed.
Lemma released_law k maps brk0 bh bs hs he cs ce s top ops : start k maps brk0 bh bs hs he cs ce -> mapper_new maps brk0 bh bs k = Some s -> top <= stack_end ce ->
  runs top s (native_start k maps hs he cs ce) ops ->
  exists s' k', final s ops = Some s' /\ mapper_drop s' = Some k' /\ k_plug k' = k_plug (s_k s') /\ forall y, k_shad k' y = None.
Proof.
  intros S E TP RU. destruct (life _ _ _ _ _ _ _ _ _ s top ops S E TP RU) as (s' & F & _ & l' & R).
  destruct (drop_ok _ _ _ _ R) as (k' & D & P & H). exists s', k'. auto.
Qed.
