(** What the callers of the allocators hold, and what they may rely on. *)
From Verif Require Import Base.Prelude Gcd.Blocks Gcd.Model Gcd.Spec Alloc.Model.
Local Open Scope N_scope.

(** ** What callers hold: blocks (the core's own, or behind a pool buffer) and runs of pages, each of a memory type *)
Inductive holding :=
| HBlock (ty addr size align : N)
| HBuffer (ty buffer size : N)
| HRun (ty base len : N).
Definition ledger := list holding.

(** The bytes a holder may use; the header in front of a pool buffer goes with the buffer. *)
Definition extent (h : holding) : N * N :=
  match h with HBlock _ p s _ => (p, s) | HBuffer _ b s => (b - 24, 24 + s) | HRun _ b l => (b, l) end.
Definition type_of (h : holding) : N := match h with HBlock t _ _ _ => t | HBuffer t _ _ => t | HRun t _ _ => t end.

Definition disjoint (r1 r2 : N * N) : Prop :=
  forall x, in_range (fst r1) (snd r1) x -> ~ in_range (fst r2) (snd r2) x.

Fixpoint drop_first {A} (f : A -> bool) (l : list A) : list A :=
  match l with [] => [] | x :: t => if f x then t else x :: drop_first f t end.

Definition power_of_two (n : N) : Prop := exists k, n = 2 ^ k.
Definition round_up (n m : N) : N := (n + m - 1) / m * m.

(** The granularity of the allocator of a memory type. *)
Definition granularity (s : sys) (ty : N) : N :=
  match find (fun a => al_type a =? ty) (s_als s) with Some a => al_gran a | None => 4096 end.

(** Giving back [pages] pages at [b], rounded up to the granularity, leaves what lies before and after them in the run. *)
Fixpoint give_back (gran : N -> N) (b pages : N) (L : ledger) : ledger :=
  match L with
  | [] => []
  | HRun t v l :: rest =>
    let n := round_up (pages * 4096) (gran t) in
    if (v <=? b) && (b + n <=? v + l) then
      (if v <? b then [HRun t v (b - v)] else []) ++ (if b + n <? v + l then [HRun t (b + n) (v + l - (b + n))] else []) ++ rest
    else HRun t v l :: give_back gran b pages rest
  | h :: rest => h :: give_back gran b pages rest
  end.

(** What a call in state [s] and its result do to the holdings. *)
Definition record (s : sys) (o : sop) (out : sout) (L : ledger) : ledger :=
  match o, out with
  | SAlloc ty size align _, Value p _ => HBlock ty p size align :: L
  | SDealloc ty p size align, Done =>
    drop_first (fun h => match h with HBlock t q s al => (t =? ty) && (q =? p) && (s =? size) && (al =? align) | _ => false end) L
  | SPool ty size _, Value b _ => HBuffer ty b size :: L
  | SFreePool b _, Done => drop_first (fun h => match h with HBuffer _ q _ => q =? b | _ => false end) L
  | SPages ty _ _ _, Value b l => HRun ty b l :: L
  | SFreePages b pages, Done => give_back (granularity s) b pages L
  | _, _ => L
  end.

(** ** The owner the memory map records *)
Definition owner (g : gcd) (x : N) : option N := option_map ms_image (state_at (g_blocks g) x).
(** Address [x] is allocated, for [h]. *)
Definition allocated_to (g : gcd) (h x : N) : Prop :=
  exists s, state_at (g_blocks g) x = Some s /\ ms_alloc s = true /\ ms_image s = h.
Definition free_of (g : gcd) (h x : N) : Prop :=
  exists s, state_at (g_blocks g) x = Some s /\ ms_alloc s = false /\ ms_image s = h.

Definition some_handle (s : sys) (h : N) : Prop := exists a, In a (s_als s) /\ al_handle a = h.

(** ** What callers must respect *)
Definition polite (s : sys) (L : ledger) (o : sop) (out : sout) (s' : sys) : Prop :=
  match o with
  (* the type [Layout] of Rust *)
  | SAlloc _ size align _ => power_of_two align /\ round_up size align < 2 ^ 63
  (* give back only what one holds *)
  | SDealloc ty p size align => In (HBlock ty p size align) L
  | SPool _ size _ => word size
  (* free a buffer one holds; or one whose header has no signature or a type without allocator, which is rejected *)
  | SFreePool b _ =>
    (exists ty size, In (HBuffer ty b size) L) \/
    let h := s_m s ((b + (2 ^ 64 - 24)) mod 2 ^ 64) in
    word b /\ (hd_sig h <> POOL_SIG \/ forall a, In a (s_als s) -> al_type a <> hd_type h)
  (* a fixed address is not taken from another allocator's reserve *)
  | SPages ty at_ pages alignment =>
    word pages /\ word alignment /\
    match at_ with
    | AtAddress x => word x /\ forall a, In a (s_als s) -> al_type a <> ty -> owner (s_g s) x <> Some (al_handle a)
    | BottomUp (Some x) | TopDown (Some x) => word x
    | _ => True
    end
  (* free a run one holds or a part of it; the map's own failure half way is finding C03 *)
  | SFreePages b pages =>
    0 < pages /\
    (exists ty v len, In (HRun ty v len) L /\ b mod granularity s ty = 0 /\ v <= b /\ b + round_up (pages * 4096) (granularity s ty) <= v + len) /\
    (forall e, out = Failed e -> s_g s' = s_g s)
  | SReserve _ pages => word pages /\ (forall e, out = Failed e -> s_g s' = s_g s)
  | SCreate _ handle gran =>
    handle <> 0 /\ word handle /\ ~ some_handle s handle /\ (forall x, ~ free_of (s_g s) handle x) /\
    power_of_two gran /\ 4096 <= gran /\ word gran
  (* other users of the memory map leave the allocators' memory alone *)
  | SGcd o =>
    op_wf o /\
    (forall e, out = Failed e -> s_g s' = s_g s) /\
    (forall v b l x h, out = Value v 0 -> call_range o v = Some (b, l) -> in_range b l x -> some_handle s h ->
       match o with OpSetAttributes _ _ _ | OpSetCapabilities _ _ _ => True | _ => owner (s_g s) x <> Some h end)
  (* nobody writes to the header of a live buffer *)
  | SWrite m => forall ty b size, In (HBuffer ty b size) L -> m (b - 24) = s_m s (b - 24)
  end.

(** ** Histories: any sequence of calls, from a memory map without allocators *)
Inductive history (dbg : bool) (bits : N) : sys -> ledger -> Prop :=
| h_start : forall nodesz prio ops g m,
    reachable dbg nodesz bits prio ops g -> g_blocks g <> [] -> history dbg bits (Sys g m []) []
| h_step : forall s L o out s',
    history dbg bits s L -> sys_step dbg s o = (out, s') -> out <> Crashed -> polite s L o out s' ->
    history dbg bits s' (record s o out L).

(** The pages an allocator has taken from the map and not returned: the runs held and the regions of its pool. *)
Fixpoint total (l : list N) : N := match l with [] => 0 | x :: t => x + total t end.
Definition outstanding (a : alloc) (L : ledger) : N :=
  total (map (fun h => match h with HRun t _ len => if t =? al_type a then len / 4096 else 0 | _ => 0 end) L) +
  total (map (fun h => hp_len h / 4096) (al_heaps a)).
