(** What a GCD map means, independently of how the code updates it. *)
From Verif Require Import Base.Prelude Gcd.Blocks Gcd.Model.
Local Open Scope N_scope.

(** The state recorded for address [a]: that of the block containing it. *)
Fixpoint state_at {St} (l : list (block St)) (a : N) : option St :=
  match l with
  | [] => None
  | b :: r => if (b_base b <=? a) && (a <? b_end b) then Some (b_st b) else state_at r a
  end.

(** [l] covers exactly [lo, hi) with consecutive non-empty blocks, in order. *)
Fixpoint tiles {St} (lo hi : N) (l : list (block St)) : Prop :=
  match l with
  | [] => lo = hi
  | b :: r => b_base b = lo /\ 0 < b_len b /\ tiles (b_end b) hi r
  end.

(** Neighbouring blocks never have the same state (maximally merged). *)
Fixpoint merged {St} (l : list (block St)) : Prop :=
  match l with
  | b1 :: ((b2 :: _) as r) => b_st b1 <> b_st b2 /\ merged r
  | _ => True
  end.

Definition in_range (base len a : N) : Prop := base <= a < base + len.

(** [l'] differs from [l] exactly on [base, base+len), where every address had one common state [s] and
    now has state [s']. *)
Definition range_changed {St} (l l' : list (block St)) (base len : N) (s s' : St) : Prop :=
  (forall a, in_range base len a -> state_at l a = Some s /\ state_at l' a = Some s') /\
  (forall a, ~ in_range base len a -> state_at l' a = state_at l a).

(** ** Memory-space calls (UEFI PI DXE services), as a caller reads them *)

(** Every argument is a machine word. *)
Definition word (n : N) : Prop := n < two64.
Definition op_wf (o : gcd_op) : Prop :=
  match o with
  | OpAdd _ b l c => word b /\ word l /\ word c
  | OpRemove b l | OpFree b l | OpFreePreserving b l => word b /\ word l
  | OpAllocate at_ _ s l i d =>
      word s /\ word l /\ word i /\
      match at_ with
      | BottomUp (Some a) | TopDown (Some a) | AtAddress a => word a
      | _ => True
      end
  | OpSetAttributes b l a => word b /\ word l /\ word a
  | OpSetCapabilities b l a => word b /\ word l /\ word a
  | OpLock | OpUnlock => True
  end.

(** The range a successful call with result [r] is about. *)
Definition call_range (o : gcd_op) (r : N) : option (N * N) :=
  match o with
  | OpAdd _ b l _ | OpRemove b l | OpFree b l | OpFreePreserving b l
  | OpSetAttributes b l _ | OpSetCapabilities b l _ => Some (b, l)
  | OpAllocate _ _ _ l _ _ => Some (r, l)
  | OpLock | OpUnlock => None
  end.

(** All bits of [a] are in [b]. *)
Definition bits_subset (a b : N) : Prop := forall i, N.testbit a i = true -> N.testbit b i = true.

(** The capabilities recorded for added memory: the caller's, plus read-protect, execute-protect, read-only
    and runtime, plus "ISA valid" for memory-mapped I/O. *)
Definition added_caps (ty : mem_type) (caps : N) : N :=
  N.lor caps (match ty with MemoryMappedIo => 0xC000000000026000 | _ => 0x8000000000026000 end).

(** What the call does to the state of each address in its range. *)
Definition call_effect (o : gcd_op) (s s' : mstate) : Prop :=
  match o with
  | OpAdd ty _ _ caps =>
      ms_alloc s = false /\ ms_type s = NonExistent /\ ty <> NonExistent /\
      s' = mkMs false ty (added_caps ty caps) MEMORY_RP (ms_image s) (ms_device s)
  | OpRemove _ _ =>
      ms_alloc s = false /\ ms_type s <> NonExistent /\
      s' = mkMs false NonExistent 0 (ms_attrs s) (ms_image s) (ms_device s)
  | OpAllocate at_ ty _ _ image device =>
      ms_alloc s = false /\ ms_type s = ty /\ ty <> NonExistent /\ ty <> Unaccepted /\ image <> 0 /\
      (match at_ with AtAddress _ => True | _ => ms_image s = 0 \/ ms_image s = image end) /\
      s' = mkMs true ty (ms_caps s) (ms_attrs s) image
                (match device with Some d => d | None => ms_device s end)
  | OpFree _ _ =>
      ms_alloc s = true /\ ms_type s <> NonExistent /\
      bits_subset (N.lor MEMORY_RP (N.land (ms_attrs s) CACHE_ATTRIBUTE_MASK)) (ms_caps s) /\
      s' = mkMs false (ms_type s) (ms_caps s) (N.lor MEMORY_RP (N.land (ms_attrs s) CACHE_ATTRIBUTE_MASK)) 0 0
  | OpFreePreserving _ _ =>
      ms_alloc s = true /\ ms_type s <> NonExistent /\
      bits_subset (N.lor MEMORY_RP (N.land (ms_attrs s) CACHE_ATTRIBUTE_MASK)) (ms_caps s) /\
      s' = mkMs false (ms_type s) (ms_caps s) (N.lor MEMORY_RP (N.land (ms_attrs s) CACHE_ATTRIBUTE_MASK))
                (ms_image s) 0
  | OpSetAttributes _ _ attrs =>
      ms_type s <> NonExistent /\ bits_subset attrs (ms_caps s) /\
      s' = mkMs (ms_alloc s) (ms_type s) (ms_caps s) attrs (ms_image s) (ms_device s)
  | OpSetCapabilities _ _ caps =>
      ms_type s <> NonExistent /\ bits_subset (ms_attrs s) caps /\
      s' = mkMs (ms_alloc s) (ms_type s) caps (ms_attrs s) (ms_image s) (ms_device s)
  | OpLock | OpUnlock => False
  end.

(** The map is initialised and describes [0, max). *)
Definition map_ok (g : gcd) : Prop :=
  tiles 0 (g_max g) (g_blocks g) /\ merged (g_blocks g) /\
  N.of_nat (length (g_blocks g)) <= g_cap g /\ g_cap g = MEMORY_BLOCK_SLICE_LEN.

(** Before the first successful memory-space addition there is no map. *)
Definition map_absent (g : gcd) : Prop := g_blocks g = [] /\ g_cap g = 0.

Definition gcd_inv (g : gcd) : Prop :=
  0 < g_max g < two64 /\ (map_ok g \/ map_absent g).

(** ** What an allocation request asks for *)

(** [image] may take all of [a, a+len): it is one stretch of existing, unallocated memory of type [ty] that has no
    owner or already belongs to [image]. *)
Definition free_run (g : gcd) (ty : mem_type) (image a len : N) : Prop :=
  ty <> NonExistent /\ ty <> Unaccepted /\
  exists s, ms_alloc s = false /\ ms_type s = ty /\ (ms_image s = 0 \/ ms_image s = image) /\
    forall x, in_range a len x -> state_at (g_blocks g) x = Some s.

(** The alignment a shift argument means: in a release build the hardware uses it modulo 64. *)
Definition alignment_of (align_shift : N) : N := 2 ^ (align_shift mod 64).

Definition aligned (align_shift a : N) : Prop := a mod alignment_of align_shift = 0.

(** The addresses a bottom-up search must consider: page zero is never handed out, and the run must end at
    or below [max] - strictly below when the run is part of the stretch that starts at address 0. *)
Definition feasible_up (g : gcd) (ty : mem_type) (align_shift len image max a : N) : Prop :=
  free_run g ty image a len /\ aligned align_shift a /\ UEFI_PAGE_SIZE <= a /\ a + len <= max /\
  (a + len = max -> exists x, x < a /\ state_at (g_blocks g) x <> state_at (g_blocks g) a).

(** The addresses a top-down search must consider: the last byte is at or below [max]. *)
Definition feasible_down (g : gcd) (ty : mem_type) (align_shift len image max a : N) : Prop :=
  free_run g ty image a len /\ aligned align_shift a /\ 0 < a /\ a + len <= max + 1.

(** ** Further vocabulary of the property statements *)

Definition is_free (o : gcd_op) : bool :=
  match o with OpFree _ _ | OpFreePreserving _ _ => true | _ => false end.

Definition free_op (p : bool) (b l : N) : gcd_op := if p then OpFreePreserving b l else OpFree b l.

(** The address bound each strategy promises. *)
Definition within_bound (at_ : alloc_type) (v len : N) : Prop :=
  match at_ with
  | BottomUp (Some m) => v + len <= m
  | TopDown (Some m) => v + len <= m + 1
  | BottomUp None | TopDown None => True
  | AtAddress a => v = a
  end.

Definition nonzero_result (at_ : alloc_type) (v : N) : Prop :=
  match at_ with AtAddress _ => True | _ => 0 < v end.

Definition attrs_ok (g : gcd) : Prop :=
  forall a s, state_at (g_blocks g) a = Some s -> ms_type s <> NonExistent -> bits_subset (ms_attrs s) (ms_caps s).

(** The state each address must have after the first successful add of [base, len). *)
Definition first_state (g : gcd) (caps base len a : N) : mstate :=
  if (base <=? a) && (a <? base + slice_size g)
  then mkMs true SystemMemory (added_caps SystemMemory caps) (N.lor MEMORY_WB MEMORY_XP) BS_DATA_HANDLE 0
  else if (base <=? a) && (a <? base + len)
  then mkMs false SystemMemory (added_caps SystemMemory caps) (N.lor MEMORY_WB MEMORY_RP) 0 0
  else initial_state.

(** A GCD obtained from a fresh one over a [bits]-bit address space by [ops]. *)
Definition reachable (dbg : bool) (nodesz bits : N) (prio : bool) (ops : list gcd_op) (g : gcd) : Prop :=
  bits < 64 /\ Forall op_wf ops /\ gcd_run (gcd_new dbg nodesz bits prio) ops = Some g.

Definition allocated_at (g : gcd) (a : N) : Prop :=
  exists s, state_at (g_blocks g) a = Some s /\ ms_alloc s = true.

(** Every address of the range is recorded with the one state [s]. *)
Definition uniform (g : gcd) (base len : N) (s : mstate) : Prop :=
  forall a, in_range base len a -> state_at (g_blocks g) a = Some s.

(** Two spare tree nodes. *)
Definition room (g : gcd) (n : N) : Prop := N.of_nat (length (g_blocks g)) + n <= g_cap g.

Definition page_aligned (n : N) : Prop := n mod UEFI_PAGE_SIZE = 0.

Definition reset_attrs (s : mstate) : N := N.lor MEMORY_RP (N.land (ms_attrs s) CACHE_ATTRIBUTE_MASK).

