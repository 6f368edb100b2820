(** Specification of the memory of a managed process: the process directly on the kernel, without
    Shadow's shared memory file. *)
From Verif Require Import Base IntervalModel IntervalSpec MemKernel MemModel.

(** Areas: what the process mapped by one call, less what it unmapped or changed since. *)
Inductive akind := KHeap | KStack | KMap.
Definition area : Type := (Z * Z) * akind.
Record native := mkNat { n_k : kern; n_heap : Z * Z; n_areas : list area }.

Definition cut (s t : Z) (l : list area) : list area :=
  flat_map (fun '((b, e), a) => map (fun i => (i, a)) (remainder b e s t)) l.
Definition inter (s t : Z) (l : list area) : list area :=
  flat_map (fun '((b, e), a) => if Z.max b s <? Z.min e t then [((Z.max b s, Z.min e t), a)] else []) l.

(** all readable bytes from [a] on *)
Definition n_read := k_read_prefix.
(** brk(2) *)
Definition n_brk (req : Z) (ok : bool) (n : native) : native * Z :=
  let '(hs, he) := n_heap n in
  if (req <? hs) || negb ok then (n, he)
  else
    let k := if he <=? req
             then set_plug (over (rup he) (rup req) (fun _ => Some (RW, CPriv 0)) (k_plug (n_k n))) (n_k n)
             else set_plug (over (rup req) (rup he) (fun _ => None) (k_plug (n_k n))) (n_k n) in
    (mkNat k (hs, req)
       (if req =? he then n_areas n
        else if he <? req then ((hs, req), KHeap) :: cut hs req (n_areas n)
        else cut req he (n_areas n)), req).

Definition native_step (n : native) (o : op) : native * result :=
  let k := n_k n in
  let h := n_heap n in
  match o with
  | OMmap ans len p src ty _ _ =>
      (match ans with
       | None => n
       | Some a => mkNat (k_mmap a len p src ty k) h (((a, a + len), KMap) :: cut a (a + len) (n_areas n))
       end, RAns ans)
  | OMunmap a len ok => (if ok then mkNat (k_munmap a len k) h (cut a (a + len) (n_areas n)) else n, ROk ok)
  | OMremap old osz nsz mv ans _ =>
      (match ans with
       | None => n
       | Some new =>
           if mv && (osz =? 0)
           then mkNat (k_mremap_dup old nsz new k) h (((new, new + nsz), KMap) :: cut new (new + nsz) (n_areas n))
           else mkNat (k_mremap old osz nsz new k) h
                      (((new, new + nsz), KMap) :: cut new (new + nsz) (cut old (old + osz) (n_areas n)))
       end, RAns ans)
  | OMprotect a size p ans =>
      match ans with
      | MpOk => (mkNat (k_mprotect a (a + rup size) p k) h
                       (inter a (a + size) (n_areas n) ++ cut a (a + size) (n_areas n)), ROk true)
      | MpErr x => (mkNat (k_mprotect a x p k) h (n_areas n), ROk false)
      end
  | OBrk req ok _ => let '(n', r) := n_brk req ok n in (n', RAns (Some r))
  | OLoad a => (n, match k_load k a with Some v => RByte v | None => RSignal end)
  | OStore a v => match k_store k a v with Some k' => (mkNat k' h (n_areas n), RNone) | None => (n, RSignal) end
  | ORead a m _ => (n, if Nat.eqb (length (n_read k a m)) m then RBytes (n_read k a m) else RFault)
  | OPrefix a m _ => (n, match m, n_read k a m with S _, [] => RFault | _, l => RBytes l end)
  | OString a m =>
      (n, match m, n_read k a m with
          | S _, [] => RFault
          | _, l => match until_nul l with Some s => RBytes s | None => RTooLong end
          end)
  | OWrite a l _ =>
      let '(k', m) := k_write_prefix k a l in
      if Nat.eqb m (length l) then (mkNat k' h (n_areas n), RNone) else (mkNat k' h (n_areas n), RFault)
  | OOther o off v =>
      (mkNat (set_obj (fun o' x => if (o' =? o) && (x =? off) then v else k_obj k o' x) k) h (n_areas n), RNone)
  end.

(** * Decisions the kernel can make *)
Definition aligned (x : Z) : Prop := x mod PAGE = 0.
Definition unmapped (k : kern) (s e : Z) : Prop := forall x, s <= x < e -> k_plug k x = None.
Definition all_mapped (k : kern) (s e : Z) : Prop := forall x, s <= x < e -> k_plug k x <> None.
(** end of the address space *)
Definition TASK_SIZE : Z := 2 ^ 47.
Definition kernel_allows (k : kern) (heap : Z * Z) (o : op) : Prop :=
  match o with
  | OMmap (Some a) len _ src ty fixed _ =>
      aligned a /\ 0 < a /\ 0 < len /\ a + rup len <= TASK_SIZE /\
      (ty = TValidate -> exists o off, src = FileAt o off) /\
      (fixed = false -> unmapped k a (a + rup len))
  | OMunmap a len true => aligned a /\ 0 <= a /\ 0 < len /\ a + rup len <= TASK_SIZE
  | OMremap old osz nsz mv (Some new) _ =>
      aligned old /\ aligned new /\ 0 < old /\ 0 < new /\ 0 <= osz /\ 0 < nsz /\ new + rup nsz <= TASK_SIZE /\
      (exists p c, k_plug k old = Some (p, c) /\
         (* one mapping *)
         (forall x, old <= x < old + rup osz -> exists v, k_plug k x =
            Some (p, match c with CPriv _ => CPriv v | _ => grown c (x - old) end)) /\
         (osz = 0 -> mv = true /\ new <> old /\ match c with CPriv _ => False | _ => True end)) /\
      (new = old -> unmapped k (old + rup osz) (old + rup nsz)) /\
      (new <> old -> mv = true /\ (new + rup nsz <= old \/ old + rup osz <= new))
  | OMprotect a size _ MpOk => aligned a /\ 0 <= a /\ 0 <= size /\ all_mapped k a (a + rup size) /\ a + rup size <= TASK_SIZE
  | OMprotect a size _ (MpErr x) =>
      x = a \/ (aligned a /\ 0 <= a <= x /\ x < a + rup size /\ aligned x /\ all_mapped k a x /\ k_plug k x = None)
  | OBrk req true _ => unmapped k (rup (snd heap)) (rup req) /\ rup req <= TASK_SIZE
  | _ => True
  end.

(** Where the kernel can map bytes [s, s + len) of the file into Shadow: at a page, over no other
    mapping, except of what was unmapped by the same call or of what grows ([os, oe)) in place. *)
Definition shadow_place (k : kern) (b s len os oe : Z) : Prop :=
  aligned b /\ 0 < b /\
  forall y, b <= y < b + rup len ->
    k_shad k y = None \/
    (exists p, k_shad k y = Some (p, s + (y - b))) \/
    (exists p x, k_shad k y = Some (p, x) /\ s <= x < s + len /\ ~ (os <= x < oe)).
Definition shadow_allows (k : kern) (heap : Z * Z) (o : op) : Prop :=
  match o with
  | OMmap (Some a) len _ _ _ _ b => shadow_place k b a len 0 0
  | OMremap old osz nsz _ (Some new) b => shadow_place k b new nsz old (old + osz)
  | OBrk req _ b => fst heap < req -> shadow_place k b (fst heap) (req - fst heap) (fst heap) (snd heap)
  | _ => True
  end.

(** * Uses that the code supports *)
Definition whole (x : Z) : Prop := x mod PAGE = 0.
(** no byte of the range is mapped without the permission *)
Definition permitted (perm : prot -> bool) (k : kern) (a n : Z) : Prop :=
  forall x p c, a <= x < a + n -> k_plug k x = Some (p, c) -> perm p = true.
Definition supported (top : Z) (n : native) (o : op) : Prop :=
  let k := n_k n in
  match o with
  | OMmap (Some _) len _ _ _ _ _ => whole len
  | OMunmap _ len true => whole len
  | OMremap old osz nsz mv (Some new) _ =>
      whole osz /\ whole nsz /\ 0 < osz /\
      In ((old, old + osz), KMap) (n_areas n) /\
      (new <> old -> forall p v, k_plug k old = Some (p, CPriv v) -> p = RW)
  | OMprotect _ size _ MpOk => whole size /\ 0 < size
  | OMprotect a _ _ (MpErr x) => x = a
  | OBrk req ok _ =>
      let '(hs, he) := n_heap n in
      req < hs \/
      (whole req /\ ok = true /\ req <= top /\
       (req = he \/
        (he < req /\ hs = he) \/
        (he < req /\ In ((hs, he), KHeap) (n_areas n) /\ forall x, hs <= x < he -> exists c, k_plug k x = Some (RW, c)) \/
        (hs < req < he /\ In ((hs, he), KHeap) (n_areas n))))
  | ORead a m al => 0 < al /\ permitted p_read k a (Z.of_nat m)
  | OPrefix a m al => 0 < al /\ permitted p_read k a (Z.of_nat m)
  | OString a m => permitted p_read k a (Z.of_nat m)
  | OWrite a l al =>
      0 < al /\ permitted p_write k a (Z.of_nat (length l)) /\
      (all_mapped k a (a + Z.of_nat (length l)) \/ k_plug k a = None)
  | _ => True
  end.

(** * Runs *)
(** Both machines do the same things with the same decisions of the kernel; what comes back is listed. *)
Inductive runs (top : Z) : state -> native -> list op -> Prop :=
| runs_nil s n : runs top s n []
| runs_cons s n o l :
    kernel_allows (n_k n) (n_heap n) o -> shadow_allows (s_k s) (n_heap n) o -> supported top n o ->
    (forall s' r, step s o = Some (s', r) -> runs top s' (fst (native_step n o)) l) ->
    runs top s n (o :: l).

Fixpoint answers (s : state) (l : list op) : option (list result) :=
  match l with
  | [] => Some []
  | o :: t => do (s', r) <- step s o; do rest <- answers s' t; Some (r :: rest)
  end.
Fixpoint native_answers (n : native) (l : list op) : list result :=
  match l with
  | [] => []
  | o :: t => snd (native_step n o) :: native_answers (fst (native_step n o)) t
  end.

(** Memory as the process sees it. *)
Definition seen (k : kern) (a : Z) : option (prot * option Z) :=
  option_map (fun x => (fst x, if backed k (snd x) then Some (content k (snd x)) else None)) (k_plug k a).

Fixpoint final (s : state) (l : list op) : option state :=
  match l with
  | [] => Some s
  | o :: t => do (s', _) <- step s o; final s' t
  end.
Fixpoint native_final (n : native) (l : list op) : native :=
  match l with
  | [] => n
  | o :: t => native_final (fst (native_step n o)) t
  end.

(** Shadow has mapped exactly the bytes of the file that the process has mapped, once each and with the
    same permissions; what the process does not have mapped is zero in the file. *)
Definition mirrors (k : kern) : Prop :=
  (forall y p x, k_shad k y = Some (p, x) -> k_plug k x = Some (p, CShm x)) /\
  (forall x p y, k_plug k x = Some (p, CShm y) -> exists z, k_shad k z = Some (p, y)) /\
  (forall y y' p p' x, k_shad k y = Some (p, x) -> k_shad k y' = Some (p', x) -> y = y') /\
  (forall x, k_file k x <> 0 -> exists p, k_plug k x = Some (p, CShm x)).
