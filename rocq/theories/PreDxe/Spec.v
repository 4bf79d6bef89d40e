(** What the hand-off blocks ask of the memory map, independently of the code that reads them. *)
From Verif Require Import Base.Prelude Gcd.Blocks Gcd.Model Gcd.Spec Alloc.Model Alloc.Spec PreDxe.Model.
Local Open Scope N_scope.

(** Memory types that can be allocated: not conventional memory (7), and not the reserved numbers. *)
Definition allocatable (ty : N) : Prop := ty <> 7 /\ ~ (14 <= ty <= 0x6FFFFFFF).

(** The unit of pages of a memory type: 64 KiB for what the operating system keeps on AArch64 (reserved
    memory, runtime code and data, ACPI NVS), else 4 KiB. *)
Definition unit_of (p : platform) (ty : N) : N :=
  if p_aarch64 p then match ty with 0 | 5 | 6 | 10 => 65536 | _ => 4096 end else 4096.

(** Whose memory it is: the core's handle is 1, boot services data is 6. *)
Definition holder (p : platform) (ty : N) : N :=
  match ty with 0 => 2 | 1 => 3 | 2 => 4 | 3 => 5 | 4 => 6 | 5 => 7 | 6 => 8 | 9 => 9 | 10 => 10 | _ => p_fresh p ty end.

(** The range a block describes, and the range whole units of pages make of it. *)
Definition describes (h : phob) (base len : N) : Prop :=
  match h with PAlloc _ b l => b = base /\ l = len | PVolume b l => b = base /\ l = len | POther => False end.
Definition covers (p : platform) (h : phob) (x : N) : Prop :=
  match h with
  | PAlloc ty b l => in_range b (round_up l (unit_of p ty)) x
  | PVolume b l => in_range b l x
  | POther => False
  end.

(** Fields have their C widths. *)
Definition phob_wf (h : phob) : Prop :=
  match h with PAlloc ty b l => ty < 2 ^ 32 /\ word b /\ word l | PVolume b l => word b /\ word l | POther => True end.

(** A block that lies in memory of state [st] is for [own]: allocated system memory is the memory type's
    and comes in whole units; what else exists in the map, and a firmware volume in memory-mapped I/O, is
    the core's. *)
Inductive entitled (p : platform) (st : mstate) : phob -> N -> Prop :=
| in_system_memory : forall ty b l, ms_type st = SystemMemory -> allocatable ty -> 0 < b -> 0 < l ->
    b mod unit_of p ty = 0 -> l mod unit_of p ty = 0 -> entitled p st (PAlloc ty b l) (holder p ty)
| in_other_memory : forall ty b l, ms_type st <> SystemMemory -> ms_type st <> NonExistent -> ms_type st <> Unaccepted ->
    ty <> 7 -> 0 < b -> 0 < l -> b mod 4096 = 0 -> l mod 4096 = 0 -> entitled p st (PAlloc ty b l) 1
| volume_in_io : forall b l, ms_type st = MemoryMappedIo -> 0 < l -> entitled p st (PVolume b l) 1.

(** The whole range is one stretch of memory that nobody has. *)
Definition nobodys (g : gcd) (base len : N) (st : mstate) : Prop :=
  uniform g base len st /\ ms_alloc st = false /\ ms_image st = 0.

(** The map and the allocators when the hand-off blocks are read: a map in use, not locked, allocators
    with the handles and units above, that of boot services data among them. *)
Record ready (dbg : bool) (bits : N) (p : platform) (s : sys) : Prop := {
  rd_map : exists nodesz prio ops, reachable dbg nodesz bits prio ops (s_g s);
  rd_some : g_blocks (s_g s) <> [];
  rd_open : g_locked (s_g s) = false;
  rd_fresh : forall ty, p_fresh p ty <> 0 /\ word (p_fresh p ty);
  rd_als : forall a, In a (s_als s) -> al_handle a = holder p (al_type a) /\ al_gran a = unit_of p (al_type a);
  rd_data : exists a, In a (s_als s) /\ al_type a = 4 }.

(** Every memory type the blocks name has an allocator. *)
Definition types_known (s : sys) (l : list phob) : Prop :=
  forall ty b n, In (PAlloc ty b n) l -> allocatable ty -> exists a, In a (s_als s) /\ al_type a = ty.

(** The call was refused, or took free memory at [x] for [own] and changed nothing else about it. *)
Definition taken_for (own : N) (s s' : mstate) : Prop :=
  ms_alloc s = false /\ s' = mkMs true (ms_type s) (ms_caps s) (ms_attrs s) own (ms_device s).

(** After this point nobody who does not free address [x] is given it. *)
Definition never_handed_out (g : gcd) (x : N) : Prop :=
  forall ops g1 at_ ty shift len image device v g2,
    Forall op_wf ops -> gcd_run g ops = Some g1 ->
    (forall b l, In (OpFree b l) ops \/ In (OpFreePreserving b l) ops -> ~ in_range b l x) ->
    op_wf (OpAllocate at_ ty shift len image device) ->
    gcd_step g1 (OpAllocate at_ ty shift len image device) = (Ok v, g2) -> ~ in_range v len x.

(** The owner block [h] may give to memory of type [mt]. *)
Definition rightful (p : platform) (h : phob) (mt : mem_type) (own : N) : Prop :=
  match h, mt with PAlloc ty _ _, SystemMemory => own = holder p ty | _, _ => own = 1 end.
