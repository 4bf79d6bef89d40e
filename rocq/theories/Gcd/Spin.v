(** * The memory map together with the page table: [SpinLockedGcd]

    patina_dxe_core/src/gcd/spin_locked_gcd.rs:1796-2624.  The page table is
    the external crate patina_paging; it is modelled as one optional set of
    attributes per 4 KiB page.  A call that must build or change tables may
    also fail for its own reasons (out of memory, ...): those failures come
    from a list of faults chosen by the environment, one entry per call.
    Locks are not modelled (one call at a time, see Tpl/ for TplMutex);
    [page_table.lock()] never contends with [memory.lock()]. *)

From Verif Require Import Base.Prelude Gcd.Blocks Gcd.Model.
Local Open Scope N_scope.

(** patina_paging::PtError, the variants the code tells apart. *)
Inductive pt_error := PtNoMapping | PtOutOfResources | PtOther.

Definition ptab := N -> option N.

(** MemoryAttributes::AccessAttributesMask | CacheAttributesMask, the same
    bits as efi::MEMORY_ACCESS_MASK | efi::CACHE_ATTRIBUTE_MASK. *)
Definition PAGING_MASK : N := 0x2701F.

Definition region_ok (base len : N) : bool :=
  (base mod UEFI_PAGE_SIZE =? 0) && (len mod UEFI_PAGE_SIZE =? 0) && negb (len =? 0).

Definition region_pages (base len : N) : list N :=
  map (fun i => base / UEFI_PAGE_SIZE + N.of_nat i) (seq 0 (N.to_nat (len / UEFI_PAGE_SIZE))).

Definition in_region (base len p : N) : bool :=
  (base / UEFI_PAGE_SIZE <=? p) && (p <? base / UEFI_PAGE_SIZE + len / UEFI_PAGE_SIZE).

Definition opt_eqb (a b : option N) : bool :=
  match a, b with
  | None, None => true
  | Some x, Some y => x =? y
  | _, _ => false
  end.

(** PageTable::query_memory_region: the attributes of a uniformly mapped
    region, NoMapping for a wholly unmapped one, an error otherwise. *)
Definition pt_query (t : ptab) (base len : N) : res pt_error N :=
  if region_ok base len then
    let c := t (base / UEFI_PAGE_SIZE) in
    if forallb (fun p => opt_eqb (t p) c) (region_pages base len) then
      match c with Some a => Ok a | None => Err PtNoMapping end
    else Err PtOther
  else Err PtOther.

(** PageTable::map_memory_region. *)
Definition pt_map (t : ptab) (base len attrs : N) (fault : option pt_error) : res pt_error ptab :=
  if region_ok base len then
    match fault with
    | Some e => Err e
    | None => Ok (fun p => if in_region base len p then Some attrs else t p)
    end
  else Err PtOther.

(** PageTable::unmap_memory_region: unmapping what is not mapped is an
    error. *)
Definition pt_unmap (t : ptab) (base len : N) (fault : option pt_error) : res pt_error ptab :=
  if region_ok base len then
    match fault with
    | Some e => Err e
    | None =>
        if forallb (fun p => opt_eqb (t p) None) (region_pages base len) then Err PtNoMapping
        else Ok (fun p => if in_region base len p then None else t p)
    end
  else Err PtOther.

(** MapChangeType, lines 1783-1790, and the cache-attribute event group. *)
Inductive notice :=
| NAdd | NRemove | NAllocate | NFree | NSetAttributes | NSetCapabilities | NCacheChange.

(** SpinLockedGcd, lines 1796-1802, and the [default_attributes] of GCD (line
    289).  [sp_notices] lists what was signalled, latest first;
    [sp_alarm] records that a [debug_assert!(false)] of this layer was passed
    in a release build.  The callback is assumed present and not to call
    back. *)
Record spin := Spin {
  sp_gcd : gcd;
  sp_pt : option ptab;
  sp_faults : list (option pt_error);
  sp_default : N;
  sp_notices : list notice;
  sp_alarm : bool
}.

Definition with_gcd (s : spin) (g : gcd) : spin :=
  Spin g (sp_pt s) (sp_faults s) (sp_default s) (sp_notices s) (sp_alarm s).
Definition with_pt (s : spin) (t : ptab) : spin :=
  Spin (sp_gcd s) (Some t) (sp_faults s) (sp_default s) (sp_notices s) (sp_alarm s).
Definition notify (s : spin) (n : notice) : spin :=
  Spin (sp_gcd s) (sp_pt s) (sp_faults s) (sp_default s) (n :: sp_notices s) (sp_alarm s).
Definition alarmed (s : spin) : spin :=
  Spin (sp_gcd s) (sp_pt s) (sp_faults s) (sp_default s) (sp_notices s) true.
Definition take_fault (s : spin) : option pt_error * spin :=
  match sp_faults s with
  | [] => (None, s)
  | f :: r => (f, Spin (sp_gcd s) (sp_pt s) r (sp_default s) (sp_notices s) (sp_alarm s))
  end.

(** The result of a call of this layer; [SHang] is a loop that never ends. *)
Inductive sout (A : Type) := SOk (a : A) | SErr (e : efi_error) | SPanic | SHang.
Arguments SOk {A} a.
Arguments SErr {A} e.
Arguments SPanic {A}.
Arguments SHang {A}.

Definition s_dbg (s : spin) : bool := g_dbg (sp_gcd s).

(** [debug_assert!(false); r]. *)
Definition assert_then {A} (s : spin) (r : sout A) : sout A * spin :=
  if s_dbg s then (SPanic, s) else (r, alarmed s).

(** set_paging_attributes, lines 1870-1994. *)
Definition set_paging_attributes (s : spin) (base len attrs : N) : sout unit * spin :=
  match sp_pt s with
  | None => (SErr NotReady, s)                                     (* 1992 *)
  | Some t =>
      let paging := N.land attrs PAGING_MASK in
      match pt_query t base len with
      | Ok cur =>
          if N.land cur PAGING_MASK =? paging then (SOk tt, s)     (* 1903-1912 *)
          else if N.land paging MEMORY_RP =? MEMORY_RP then        (* 1916-1941 *)
            let (f, s) := take_fault s in
            match pt_unmap t base len f with
            | Ok t' => (SOk tt, with_pt s t')
            | _ => assert_then s (SErr InvalidParameter)
            end
          else                                                     (* 1943-1988 *)
            let (f, s) := take_fault s in
            match pt_map t base len paging f with
            | Ok t' =>
                let s := with_pt s t' in
                if negb (N.land cur CACHE_ATTRIBUTE_MASK =? N.land paging CACHE_ATTRIBUTE_MASK)
                   && negb (N.land paging CACHE_ATTRIBUTE_MASK =? 0)
                then (SOk tt, notify s NCacheChange) else (SOk tt, s)
            | Err PtOutOfResources => assert_then s (SErr OutOfResources)
            | Err PtNoMapping => assert_then s (SErr NotFound)
            | _ => assert_then s (SErr InvalidParameter)
            end
      | Err PtNoMapping =>
          if N.land paging MEMORY_RP =? MEMORY_RP then assert_then s (SOk tt)   (* 1917-1924 *)
          else
            let (f, s) := take_fault s in
            match pt_map t base len paging f with
            | Ok t' =>
                let s := with_pt s t' in
                if negb (N.land paging CACHE_ATTRIBUTE_MASK =? 0)
                then (SOk tt, notify s NCacheChange) else (SOk tt, s)
            | Err PtOutOfResources => assert_then s (SErr OutOfResources)
            | Err PtNoMapping => assert_then s (SErr NotFound)
            | _ => assert_then s (SErr InvalidParameter)
            end
      | _ => assert_then s (SErr InvalidParameter)                 (* 1890-1898 *)
      end
  end.

(** The GCD call of lines 2419-2431, whose error is only logged. *)
Definition swallow_set (s : spin) (base len attrs : N) : sout unit * spin :=
  match set_memory_space_attributes (sp_gcd s) base len attrs with
  | (Ok _, g) => (SOk tt, with_gcd s g)
  | (Err _, g) => assert_then (with_gcd s g) (SOk tt)
  | (Panic, g) => (SPanic, with_gcd s g)
  end.

(** The rollback of lines 2458-2468: its error is only logged. *)
Definition rollback (s : spin) (base len attrs : N) : spin :=
  with_gcd s (snd (set_memory_space_attributes (sp_gcd s) base len attrs)).

(** set_memory_space_attributes, the loop of lines 2412-2476.  [not_ready] is
    [res]. *)
Fixpoint set_attrs_loop (fuel : nat) (s : spin) (cur range_end attrs : N) (not_ready : bool)
  : sout unit * spin :=
  match fuel with
  | O => (SHang, s)
  | S fuel' =>
      if range_end <=? cur then
        (if not_ready then SErr NotReady else SOk tt, notify s NSetAttributes)
      else
        match get_memory_descriptor_for_address (sp_gcd s) cur with
        | Err e => (SErr e, s)
        | Panic => (SPanic, s)
        | Ok d =>
            match uadd (E := efi_error) (s_dbg s) (b_base d) (b_len d) with
            | Ok d_end =>
                let next := N.min d_end range_end in
                match usub (E := efi_error) (s_dbg s) next cur with
                | Ok n =>
                    match swallow_set s cur n attrs with
                    | (SOk _, s1) =>
                        if N.land attrs PAGING_MASK =? 0 then
                          set_attrs_loop fuel' s1 next range_end attrs not_ready
                        else
                          match set_paging_attributes s1 cur n attrs with
                          | (SOk _, s2) => set_attrs_loop fuel' s2 next range_end attrs not_ready
                          | (SErr NotReady, s2) => set_attrs_loop fuel' s2 next range_end attrs true
                          | (SErr e, s2) =>
                              match assert_then s2 (SErr e) with
                              | (SPanic, s3) => (SPanic, s3)
                              | (r, s3) => (r, rollback s3 cur n (ms_attrs (b_st d)))
                              end
                          | (r, s2) => (r, s2)
                          end
                    | (r, s1) => (r, s1)
                    end
                | _ => (SPanic, s)
                end
            | _ => (SPanic, s)
            end
        end
  end.

(** Each turn that makes progress passes the end of a block, and the blocks
    past [cur] are never split: as many turns as blocks, one to finish. *)
Definition attrs_fuel (s : spin) : nat := S (S (length (g_blocks (sp_gcd s)))).

(** set_memory_space_attributes, lines 2397-2484. *)
Definition spin_set_attributes (s : spin) (base len attrs : N) : sout unit * spin :=
  match uadd (E := efi_error) (s_dbg s) base len with
  | Ok range_end => set_attrs_loop (attrs_fuel s) s base range_end attrs false
  | _ => (SPanic, s)
  end.

(** add_memory_space, lines 2216-2230. *)
Definition spin_add (s : spin) (ty : mem_type) (base len caps : N) : sout N * spin :=
  match add_memory_space (sp_gcd s) ty base len caps with
  | (Ok v, g) => (SOk v, notify (with_gcd s g) NAdd)
  | (Err e, g) => (SErr e, with_gcd s g)
  | (Panic, g) => (SPanic, with_gcd s g)
  end.

(** remove_memory_space, lines 2236-2256. *)
Definition spin_remove (s : spin) (base len : N) : sout unit * spin :=
  match remove_memory_space (sp_gcd s) base len with
  | (Ok _, g) =>
      let s := with_gcd s g in
      let s := match sp_pt s with
               | None => s
               | Some t =>
                   let (f, s) := take_fault s in
                   match pt_unmap t base len f with Ok t' => with_pt s t' | _ => s end
               end in
      (SOk tt, notify s NRemove)
  | (Err e, g) => (SErr e, with_gcd s g)
  | (Panic, g) => (SPanic, with_gcd s g)
  end.

(** allocate_memory_space, lines 2262-2329.  DEFAULT_CACHE_ATTR is
    sdk/patina/src/base.rs:147 (WB). *)
Definition DEFAULT_CACHE_ATTR : N := MEMORY_WB.

Definition spin_allocate (s : spin) (at_ : alloc_type) (ty : mem_type) (align_shift len image : N)
  (device : option N) : sout N * spin :=
  match allocate_memory_space (sp_gcd s) at_ ty align_shift len image device with
  | (Ok v, g) =>
      let s := with_gcd s g in
      match get_memory_descriptor_for_address g v with
      | Panic => (SPanic, s)
      | r =>
          let a := match r with Ok d => ms_attrs (b_st d) | _ => DEFAULT_CACHE_ATTR end in
          match spin_set_attributes s v len (N.lor (N.land a CACHE_ATTRIBUTE_MASK) (sp_default s)) with
          | (SOk _, s) | (SErr NotReady, s) => (SOk v, notify s NAllocate)
          | (SErr _, s) =>
              match assert_then s (SOk v) with
              | (SOk v, s) => (SOk v, notify s NAllocate)
              | r => r
              end
          | (SPanic, s) => (SPanic, s)
          | (SHang, s) => (SHang, s)
          end
      end
  | (Err e, g) => (SErr e, with_gcd s g)
  | (Panic, g) => (SPanic, with_gcd s g)
  end.

(** free_memory_space, lines 2336-2372. *)
Definition spin_free (s : spin) (base len : N) : sout unit * spin :=
  match free_memory_space (sp_gcd s) base len with
  | (Ok _, g) =>
      let s := with_gcd s g in
      match sp_pt s with
      | None => (SOk tt, notify s NFree)
      | Some t =>
          let (f, s) := take_fault s in
          match pt_unmap t base len f with
          | Ok t' => (SOk tt, notify (with_pt s t') NFree)
          | _ =>
              match assert_then s (SOk tt) with
              | (SOk _, s) => (SOk tt, notify s NFree)
              | r => r
              end
          end
      end
  | (Err AccessDenied, g) => (SOk tt, with_gcd s g)
  | (Err e, g) => (SErr e, with_gcd s g)
  | (Panic, g) => (SPanic, with_gcd s g)
  end.

(** free_memory_space_preserving_ownership, lines 2383-2391. *)
Definition spin_free_preserving (s : spin) (base len : N) : sout unit * spin :=
  match free_memory_space_preserving_ownership (sp_gcd s) base len with
  | (Ok _, g) => (SOk tt, notify (with_gcd s g) NFree)
  | (Err e, g) => (SErr e, with_gcd s g)
  | (Panic, g) => (SPanic, with_gcd s g)
  end.

(** set_memory_space_capabilities, lines 2490-2503. *)
Definition spin_set_capabilities (s : spin) (base len caps : N) : sout unit * spin :=
  match set_memory_space_capabilities (sp_gcd s) base len caps with
  | (Ok _, g) => (SOk tt, notify (with_gcd s g) NSetCapabilities)
  | (Err e, g) => (SErr e, with_gcd s g)
  | (Panic, g) => (SPanic, with_gcd s g)
  end.

(** dxe_services.rs:151-171 [core_set_memory_space_attributes], the DXE
    service; [is_ready] (line 1806) is [maximum_address != 0]. *)
Definition dxe_set_attributes (s : spin) (base len attrs : N) : sout unit * spin :=
  match spin_set_attributes s base len attrs with
  | (SErr NotReady, s') => (if g_max (sp_gcd s') =? 0 then SErr NotReady else SOk tt, s')
  | r => r
  end.

(** ** init_paging, lines 2031-2206

    The pages the paging crate allocates for its own tables are not modelled,
    and the fresh table is empty.  The DXE core image is given by the base and
    length of its MemoryAllocationModule block and, for each section of its
    PE header, the virtual address, the aligned virtual size and whether it
    is code. *)

(** get_allocated_memory_descriptors, lines 997-1016. *)
Definition allocated_descriptors (g : gcd) : list mblock :=
  filter (fun b => ms_alloc (b_st b)) (g_blocks g).

(** get_mmio_and_reserved_descriptors, lines 1018-1039. *)
Definition mmio_and_reserved_descriptors (g : gcd) : list mblock :=
  filter (fun b => negb (ms_alloc (b_st b))
                   && (mt_eqb (ms_type (b_st b)) MemoryMappedIo || mt_eqb (ms_type (b_st b)) Reserved))
         (g_blocks g).

(** [x & !UEFI_PAGE_MASK]. *)
Definition page_down (x : N) : N := x - x mod UEFI_PAGE_SIZE.

(** Lines 2057-2081 and 2157-2187: one call per range; an error is a
    [debug_assert!(false)]. *)
Fixpoint map_ranges (s : spin) (l : list (N * N * N)) : sout unit * spin :=
  match l with
  | [] => (SOk tt, s)
  | (base, len, attrs) :: r =>
      match spin_set_attributes s base len attrs with
      | (SOk _, s) => map_ranges s r
      | (SErr _, s) =>
          match assert_then s (SOk tt) with
          | (SOk _, s) => map_ranges s r
          | x => x
          end
      | x => x
      end
  end.

Definition allocated_request (b : mblock) : N * N * N :=
  (b_base b, b_len b, N.lor (N.land (ms_attrs (b_st b)) CACHE_ATTRIBUTE_MASK) MEMORY_XP).

(** Lines 2158-2164; [desc.length + UEFI_PAGE_MASK] does not overflow, blocks
    ending below 2^63. *)
Definition mmio_request (b : mblock) : N * N * N :=
  (page_down (b_base b), page_down (b_len b + UEFI_PAGE_MASK),
   N.lor (N.land (ms_attrs (b_st b)) CACHE_ATTRIBUTE_MASK) MEMORY_XP).

(** The DXE core image, lines 2083-2154: any failure panics. *)
Definition core_attrs (s : spin) (core_base access : N) : res efi_error N :=
  match get_memory_descriptor_for_address (sp_gcd s) core_base with
  | Ok d => Ok (N.lor access (N.land (ms_attrs (b_st d)) CACHE_ATTRIBUTE_MASK))
  | _ => Panic
  end.

Definition map_or_panic (s : spin) (base len attrs : N) : sout unit * spin :=
  match spin_set_attributes s base len attrs with
  | (SErr _, s) => (SPanic, s)
  | r => r
  end.

Fixpoint map_sections (s : spin) (core_base : N) (l : list (N * N * bool)) : sout unit * spin :=
  match l with
  | [] => (SOk tt, s)
  | (va, len, code) :: r =>
      match core_attrs s core_base (if code then MEMORY_RO else MEMORY_XP), uadd (E := efi_error) (s_dbg s) core_base va with
      | Ok attrs, Ok base =>
          match map_or_panic s base len attrs with
          | (SOk _, s) => map_sections s core_base r
          | x => x
          end
      | _, _ => (SPanic, s)
      end
  end.

Definition map_core (s : spin) (core_base core_len : N) (sections : list (N * N * bool)) : sout unit * spin :=
  match core_attrs s core_base MEMORY_XP with
  | Ok attrs =>
      match map_or_panic s core_base core_len attrs with
      | (SOk _, s) => map_sections s core_base sections
      | x => x
      end
  | _ => (SPanic, s)
  end.

(** Lines 2189-2201: page 0 is unmapped for null-pointer detection. *)
Definition unmap_page_0 (s : spin) : sout unit * spin :=
  match get_memory_descriptor_for_address (sp_gcd s) 0 with
  | Ok d =>
      if mt_eqb (ms_type (b_st d)) NonExistent then (SOk tt, s)
      else
        match spin_set_attributes s 0 UEFI_PAGE_SIZE MEMORY_RP with
        | (SErr _, s) => assert_then s (SOk tt)
        | r => r
        end
  | Err _ => (SOk tt, s)
  | Panic => (SPanic, s)
  end.

Definition init_paging (s : spin) (core_base core_len : N) (sections : list (N * N * bool)) : sout unit * spin :=
  if g_max (sp_gcd s) =? 0 then (SPanic, s)
  else
    let mmio := mmio_and_reserved_descriptors (sp_gcd s) in
    let alloc := allocated_descriptors (sp_gcd s) in
    match map_ranges (with_pt s (fun _ => None)) (map allocated_request alloc) with
    | (SOk _, s) =>
        match map_core s core_base core_len sections with
        | (SOk _, s) =>
            match map_ranges s (map mmio_request mmio) with
            | (SOk _, s) => unmap_page_0 s
            | x => x
            end
        | x => x
        end
    | x => x
    end.

(** ** Histories *)
Inductive spin_op :=
| SAdd (ty : mem_type) (base len caps : N)
| SRemove (base len : N)
| SAllocate (at_ : alloc_type) (ty : mem_type) (align_shift len image : N) (device : option N)
| SFree (base len : N)
| SSetAttributes (base len attrs : N)
| SSetCapabilities (base len caps : N)
| SLock
| SUnlock.

Definition sunit (r : sout unit * spin) : sout N * spin :=
  match r with
  | (SOk _, s) => (SOk 0, s)
  | (SErr e, s) => (SErr e, s)
  | (SPanic, s) => (SPanic, s)
  | (SHang, s) => (SHang, s)
  end.

Definition spin_step (s : spin) (o : spin_op) : sout N * spin :=
  match o with
  | SAdd ty b l c => spin_add s ty b l c
  | SRemove b l => sunit (spin_remove s b l)
  | SAllocate a ty sh l i d => spin_allocate s a ty sh l i d
  | SFree b l => sunit (spin_free s b l)
  | SSetAttributes b l a => sunit (spin_set_attributes s b l a)
  | SSetCapabilities b l c => sunit (spin_set_capabilities s b l c)
  | SLock => (SOk 0, with_gcd s (lock_memory_space (sp_gcd s)))     (* 1996-1998 *)
  | SUnlock => (SOk 0, with_gcd s (unlock_memory_space (sp_gcd s))) (* 2000-2002 *)
  end.

(** The state after a history in which no call panicked or hung. *)
Fixpoint spin_run (s : spin) (ops : list spin_op) : option spin :=
  match ops with
  | [] => Some s
  | o :: r =>
      match spin_step s o with
      | (SPanic, _) | (SHang, _) => None
      | (_, s') => spin_run s' r
      end
  end.
