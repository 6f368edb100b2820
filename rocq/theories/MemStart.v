(** Specification: a process when Shadow starts to map its memory. *)
From Verif Require Import Base IntervalModel IntervalSpec MemKernel MemModel MemSpec.

(** Lines of /proc/<pid>/maps, in order. *)
Fixpoint ordered (lo : Z) (l : list pmap) : Prop :=
  match l with
  | [] => True
  | ((s, e), _) :: r => lo <= s /\ s < e /\ e <= TASK_SIZE /\ aligned s /\ aligned e /\ ordered e r
  end.
Definition attr_dec (a b : prot * bool * option path) : {a = b} + {a <> b}.
Proof. repeat decide equality. Defined.
(** adjacent lines that say the same are one *)
Fixpoint join (l : list pmap) : list pmap :=
  match l with
  | [] => []
  | ((s, e), a) :: r =>
      match join r with
      | ((s', e'), a') :: t => if (e =? s') && (if attr_dec a a' then true else false) then ((s, e'), a) :: t else ((s, e), a) :: ((s', e'), a') :: t
      | [] => [((s, e), a)]
      end
  end.
Definition akind_of (p : option path) : akind := match p with Some PHeap => KHeap | Some PStack => KStack | _ => KMap end.
Definition area_of (q : pmap) : area := (fst q, akind_of (snd (snd q))).
Definition lines (a : akind) (l : list pmap) : list pmap :=
  filter (fun q => match akind_of (snd (snd q)), a with KHeap, KHeap | KStack, KStack => true | _, _ => false end) l.

(** the end of the part of the stack that Shadow takes over, and its greatest size *)
Definition stack_start (ce : Z) : Z := ce - 8 * 1024 * 1024.
Definition stack_end (ce : Z) : Z := ce - PAGE.

(** A process with lines [maps], whose heap is [hs, he) and whose stack is [cs, ce); Shadow gets addresses
    [bh] and [bs] when it maps the heap and the stack. *)
Record start (k : kern) (maps : list pmap) (brk0 bh bs hs he cs ce : Z) : Prop := {
  sr_maps : ordered 0 maps;
  sr_in : forall x, k_plug k x <> None <-> exists s e a, In ((s, e), a) maps /\ s <= x < e;
  sr_new : forall x p y, k_plug k x <> Some (p, CShm y);
  sr_shad : forall y, k_shad k y = None;
  sr_file : forall x, k_file k x = 0;
  (* the heap: one line, or none yet *)
  sr_heap : lines KHeap (join maps) = [((hs, he), (RW, false, Some PHeap))] \/
            (lines KHeap (join maps) = [] /\ hs = brk0 /\ he = brk0 /\ aligned brk0 /\ 0 < brk0);
  sr_hpos : 0 < hs;
  sr_hmem : forall x, hs <= x < he -> exists v, k_plug k x = Some (RW, CPriv v);
  (* the stack: one line, with space below *)
  sr_stack : lines KStack (join maps) = [((cs, ce), (RW, false, Some PStack))];
  sr_smem : forall x, cs <= x < ce -> exists v, k_plug k x = Some (RW, CPriv v);
  sr_slow : 0 < stack_start ce <= cs;
  sr_sgap : unmapped k (stack_start ce) cs;
  (* where the kernel maps them into Shadow *)
  sr_bh : aligned bh /\ 0 < bh;
  sr_bs : aligned bs /\ 0 < bs;
  sr_bdisj : bh + (he - hs) <= bs \/ bs + (stack_end ce - stack_start ce) <= bh }.

(** The same process without Shadow; its stack may grow to its limit, so all of it is there. *)
Definition native_start (k : kern) (maps : list pmap) (hs he cs ce : Z) : native :=
  mkNat (set_plug (over (stack_start ce) cs (fun _ => Some (RW, CPriv 0)) (k_plug k)) k) (hs, he)
        (((stack_start ce, stack_end ce), KStack) :: cut (stack_start ce) (stack_end ce) (map area_of (join maps))).

(** Runs of which only the kernel's decisions are restricted. *)
Fixpoint allowed (s : state) (n : native) (l : list op) : Prop :=
  match l with
  | [] => True
  | o :: t => kernel_allows (n_k n) (n_heap n) o /\ shadow_allows (s_k s) (n_heap n) o /\
              match step s o with Some (s', _) => allowed s' (fst (native_step n o)) t | None => True end
  end.
