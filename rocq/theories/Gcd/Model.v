(** Model of the memory half of patina_dxe_core/src/gcd/spin_locked_gcd.rs ([struct GCD]) and of
    patina_dxe_core/src/gcd/memory_block.rs. *)
From Verif Require Import Base.Prelude Align.Model Gcd.Blocks.
Local Open Scope N_scope.

(** sdk/patina_pi/src/dxe_services.rs:145-168 [GcdMemoryType]. *)
Inductive mem_type : Type :=
| NonExistent | Reserved | SystemMemory | MemoryMappedIo | Persistent | MoreReliable | Unaccepted.

Definition mt_eqb (a b : mem_type) : bool :=
  match a, b with
  | NonExistent, NonExistent | Reserved, Reserved | SystemMemory, SystemMemory
  | MemoryMappedIo, MemoryMappedIo | Persistent, Persistent | MoreReliable, MoreReliable
  | Unaccepted, Unaccepted => true
  | _, _ => false
  end.

(** memory_block.rs:22-26 [MemoryBlock] without base and length: the variant tag and the remaining
    fields of dxe_services.rs:186-207 [MemorySpaceDescriptor].  Handles are addresses; 0 is null. *)
Record mstate := mkMs {
  ms_alloc : bool;
  ms_type : mem_type;
  ms_caps : N;
  ms_attrs : N;
  ms_image : N;
  ms_device : N }.

(** memory_block.rs:175-185 [is_same_state]. *)
Definition same_state (a b : mstate) : bool :=
  Bool.eqb (ms_alloc a) (ms_alloc b) && mt_eqb (ms_type a) (ms_type b)
  && (ms_attrs a =? ms_attrs b) && (ms_caps a =? ms_caps b)
  && (ms_device a =? ms_device b) && (ms_image a =? ms_image b).

(** memory_block.rs:28-37 [StateTransition]. *)
Inductive transition : Type :=
| TAdd (t : mem_type) (caps attrs : N)
| TRemove
| TAllocate (image : N) (device : option N)
| TAllocateRespectingOwnership (image : N) (device : option N)
| TFree
| TFreePreservingOwnership
| TSetAttributes (attrs : N)
| TSetCapabilities (caps : N).

(** memory_block.rs:206-224. *)
Definition add_transition (s : mstate) (t : mem_type) (caps attrs : N) : option mstate :=
  if negb (ms_alloc s) && mt_eqb (ms_type s) NonExistent && negb (mt_eqb t NonExistent)
  then Some (mkMs false t caps attrs (ms_image s) (ms_device s))
  else None.

(** memory_block.rs:226-235. Attributes and handles are left alone. *)
Definition remove_transition (s : mstate) : option mstate :=
  if negb (ms_alloc s) && negb (mt_eqb (ms_type s) NonExistent)
  then Some (mkMs false NonExistent 0 (ms_attrs s) (ms_image s) (ms_device s))
  else None.

(** memory_block.rs:237-264. *)
Definition allocate_transition (s : mstate) (image : N) (device : option N) (respect : bool) : option mstate :=
  if negb (ms_alloc s) && negb (mt_eqb (ms_type s) NonExistent || mt_eqb (ms_type s) Unaccepted)
  then if respect && negb ((ms_image s =? 0) || (ms_image s =? image)) then None
       else Some (mkMs true (ms_type s) (ms_caps s) (ms_attrs s) image
                       (match device with Some d => d | None => ms_device s end))
  else None.

(** memory_block.rs:266-278. *)
Definition free_transition (s : mstate) (preserve : bool) : option mstate :=
  if ms_alloc s && negb (mt_eqb (ms_type s) NonExistent)
  then Some (mkMs false (ms_type s) (ms_caps s) (ms_attrs s)
                  (if preserve then ms_image s else 0) 0)
  else None.

(** memory_block.rs:280-294. *)
Definition attribute_transition (s : mstate) (attrs : N) : option mstate :=
  if negb (mt_eqb (ms_type s) NonExistent)
  then if negb (N.lor (ms_caps s) attrs =? ms_caps s) then None
       else Some (mkMs (ms_alloc s) (ms_type s) (ms_caps s) attrs (ms_image s) (ms_device s))
  else None.

(** memory_block.rs:296-313. *)
Definition capabilities_transition (s : mstate) (caps : N) : option mstate :=
  if negb (mt_eqb (ms_type s) NonExistent)
  then if negb (N.land caps (ms_attrs s) =? ms_attrs s) then None
       else Some (mkMs (ms_alloc s) (ms_type s) caps (ms_attrs s) (ms_image s) (ms_device s))
  else None.

(** memory_block.rs:187-204 [state_transition]. *)
Definition state_transition (t : transition) (s : mstate) : option mstate :=
  match t with
  | TAdd ty c a => add_transition s ty c a
  | TRemove => remove_transition s
  | TAllocate i d => allocate_transition s i d false
  | TAllocateRespectingOwnership i d => allocate_transition s i d true
  | TFree => free_transition s false
  | TFreePreservingOwnership => free_transition s true
  | TSetAttributes a => attribute_transition s a
  | TSetCapabilities c => capabilities_transition s c
  end.

Notation mblock := (block mstate).

(** ** Constants (r_efi::efi memory attribute bits, UEFI specification values) *)
Definition MEMORY_WB : N := 0x8.
Definition MEMORY_RP : N := 0x2000.
Definition MEMORY_XP : N := 0x4000.
Definition MEMORY_RO : N := 0x20000.
Definition MEMORY_RUNTIME : N := 0x8000000000000000.
Definition MEMORY_ISA_VALID : N := 0x4000000000000000.
Definition MEMORY_ACCESS_MASK : N := 0x26000.    (* RP | XP | RO *)
Definition CACHE_ATTRIBUTE_MASK : N := 0x101F.    (* UC | WC | WT | WB | UCE | WP *)
(** sdk/patina/src/base.rs:21-24. *)
Definition UEFI_PAGE_SIZE : N := 0x1000.
Definition UEFI_PAGE_MASK : N := 0xFFF.
Definition U32_MAX : N := 0xFFFFFFFF.
(** spin_locked_gcd.rs:43-44: 4096 nodes; the byte size of a node is a parameter of the state. *)
Definition MEMORY_BLOCK_SLICE_LEN : N := 4096.
(** protocol_db.rs:33 EFI_BOOT_SERVICES_DATA_ALLOCATOR_HANDLE. *)
Definition BS_DATA_HANDLE : N := 6.

(** ** The GCD (spin_locked_gcd.rs:282-292).  [g_locked] stands for the two function pointers, which are
    always switched together (lines 325-334).  [g_cap] is the tree's capacity.  [g_nodesz] is
    [node_size::<MemoryBlock>()]; [g_dbg] is the build profile.  The memory the tree itself lives in is
    not modelled.  The pages of [MEMORY_BLOCK_SLICE_SIZE] are a whole number of pages because
    4096 nodes of any size are. *)
Record gcd := mkGcd {
  g_dbg : bool;
  g_nodesz : N;
  g_max : N;
  g_cap : N;
  g_blocks : list mblock;
  g_locked : bool;
  g_prio32 : bool }.

Definition set_blocks (g : gcd) (l : list mblock) : gcd :=
  mkGcd (g_dbg g) (g_nodesz g) (g_max g) (g_cap g) l (g_locked g) (g_prio32 g).

Definition slice_size (g : gcd) : N := MEMORY_BLOCK_SLICE_LEN * g_nodesz g.

(** spin_locked_gcd.rs: SpinLockedGcd::new / reset and [GCD::init] lines 336-338. *)
Definition gcd_new (dbg : bool) (nodesz bits : N) (prio32 : bool) : gcd :=
  mkGcd dbg nodesz (2 ^ bits) 0 [] false prio32.

(** spin_locked_gcd.rs:325-334. *)
Definition lock_memory_space (g : gcd) : gcd :=
  mkGcd (g_dbg g) (g_nodesz g) (g_max g) (g_cap g) (g_blocks g) true (g_prio32 g).
Definition unlock_memory_space (g : gcd) : gcd :=
  mkGcd (g_dbg g) (g_nodesz g) (g_max g) (g_cap g) (g_blocks g) false (g_prio32 g).

(** Run [sst_at] on the GCD's tree. *)
Definition g_sst (g : gcd) (k base len : N) (t : transition) : res ierr N * gcd :=
  let (r, l) := sst_at same_state (g_dbg g) (g_cap g) (g_blocks g) k base len (state_transition t) in
  (r, set_blocks g l).

(** spin_locked_gcd.rs:896-930 [set_gcd_memory_attributes]. *)
Definition set_gcd_memory_attributes (g : gcd) (base len attrs : N) : res efi_error unit * gcd :=
  match closest (g_blocks g) base with
  | None => (Err NotFound, g)
  | Some idx =>
      match g_sst g idx base len (TSetAttributes attrs) with
      | (Ok _, g') => (Ok tt, g')
      | (Err InvalidStateTransition, g') | (Err BlockOutsideRange, g') =>
          (debug_fail (g_dbg g) (Err Unsupported), g')
      | (Err OutOfSpace, g') => (debug_fail (g_dbg g) (Err OutOfResources), g')
      | (Err AlreadyExists, g') | (Panic, g') => (Panic, g')
      end
  end.

(** The argument checks shared by lines 579-582, 882-885 and 942-945. *)
Definition check_range (g : gcd) (base len : N) (page_aligned : bool) : res efi_error unit :=
  if g_max g =? 0 then Err NotReady
  else if len =? 0 then Err InvalidParameter
  else
    let* e := uadd (g_dbg g) base len in
    if g_max g <? e then Err Unsupported
    else if page_aligned && negb ((N.land base UEFI_PAGE_MASK =? 0) && (N.land len UEFI_PAGE_MASK =? 0))
    then Err InvalidParameter
    else Ok tt.

(** spin_locked_gcd.rs:876-890 [set_memory_space_attributes]. *)
Definition set_memory_space_attributes (g : gcd) (base len attrs : N) : res efi_error unit * gcd :=
  match check_range g base len true with
  | Ok _ => set_gcd_memory_attributes g base len attrs
  | Err e => (Err e, g)
  | Panic => (Panic, g)
  end.

(** spin_locked_gcd.rs:936-968 [set_memory_space_capabilities]. *)
Definition set_memory_space_capabilities (g : gcd) (base len caps : N) : res efi_error unit * gcd :=
  match check_range g base len true with
  | Ok _ =>
      match closest (g_blocks g) base with
      | None => (Err NotFound, g)
      | Some idx =>
          match g_sst g idx base len (TSetCapabilities caps) with
          | (Ok _, g') => (Ok tt, g')
          | (Err InvalidStateTransition, g') | (Err BlockOutsideRange, g') => (Err Unsupported, g')
          | (Err OutOfSpace, g') => (Err OutOfResources, g')
          | (Err AlreadyExists, g') | (Panic, g') => (Panic, g')
          end
      end
  | Err e => (Err e, g)
  | Panic => (Panic, g)
  end.

(** [addr & (usize::MAX << shift)] with [shift] already reduced. *)
Definition mask_down (addr shift : N) : N := N.land addr (two64 - 2 ^ shift).

(** spin_locked_gcd.rs:801-848 [allocate_address]. *)
Definition allocate_address (g : gcd) (ty : mem_type) (align_shift len image : N) (device : option N)
  (address : N) : res efi_error N * gcd :=
  if len =? 0 then (Err InvalidParameter, g)
  else match closest (g_blocks g) address with
  | None => (Err NotFound, g)
  | Some idx =>
      match lookup (g_blocks g) idx with
      | None => (Err NotFound, g)
      | Some b =>
          match (if mt_eqb (ms_type (b_st b)) ty
                 then ushift_amount (E := efi_error) (g_dbg g) align_shift else Ok 0) with
          | Ok sh =>
            if negb (mt_eqb (ms_type (b_st b)) ty && (address =? mask_down address sh))
            then (Err NotFound, g)
            else
              match g_sst g idx address len (TAllocate image device) with
              | (Ok _, g') => (Ok address, g')
              | (Err InvalidStateTransition, g') | (Err BlockOutsideRange, g') => (Err NotFound, g')
              | (Err OutOfSpace, g') => (Err OutOfResources, g')
              | (Err AlreadyExists, g') | (Panic, g') => (Panic, g')
              end
          | Err e => (Err e, g)
          | Panic => (Panic, g)
          end
      end
  end.

(** What the bottom-up loop body decides for one block, before the split (lines 668-697). *)
Inductive candidate : Type :=
| Skip
| Stop (e : efi_error)
| Try (addr : N)
| CPanic.

(** spin_locked_gcd.rs:668-697: body of the bottom-up loop up to the split. *)
Definition bottom_up_candidate (dbg : bool) (mb : mblock) (ty : mem_type) (align_shift len max_address : N)
  : candidate :=
  match ushift_amount (E := efi_error) dbg align_shift with
  | Ok sh =>
    let alignment := 2 ^ sh in
    if b_len mb <? len then Skip
    else
      let address := b_base mb in
      let addr0 := mask_down address sh in
      match (if addr0 <? address then uadd (E := efi_error) dbg addr0 alignment else Ok addr0) with
      | Ok addr =>
        match uadd (E := efi_error) dbg addr len with
        | Ok e =>
          if max_address <? e then Stop NotFound
          else if negb (mt_eqb (ms_type (b_st mb)) ty) then Skip
          else if addr =? 0 then
            match align_up 64 UEFI_PAGE_SIZE alignment with
            | Ok addr' =>
                match uadd (E := efi_error) dbg addr' len with
                | Ok e' =>
                    if max_address <=? e' then Skip
                    else match usub (E := efi_error) dbg (b_len mb) addr' with
                         | Ok room => if room <? len then Skip else Try addr'
                         | _ => CPanic
                         end
                | _ => CPanic
                end
            | Err e' => Stop e'
            | Panic => CPanic
            end
          else Try addr
        | _ => CPanic
        end
      | _ => CPanic
      end
  | _ => CPanic
  end.

(** spin_locked_gcd.rs:644-716 [allocate_bottom_up].  The loop over [first_idx]/[next_idx] is a loop
    over the keys in order: no iteration that continues has changed the tree. *)
Fixpoint bottom_up_loop (g : gcd) (keys : list N) (ty : mem_type) (align_shift len image : N)
  (device : option N) (max_address : N) : res efi_error N * gcd :=
  match keys with
  | [] => (if max_address =? u64_max then Err OutOfResources else Err NotFound, g)
  | idx :: rest =>
      match lookup (g_blocks g) idx with
      | None => (Panic, g)
      | Some mb =>
          match bottom_up_candidate (g_dbg g) mb ty align_shift len max_address with
          | Skip => bottom_up_loop g rest ty align_shift len image device max_address
          | Stop e => (Err e, g)
          | CPanic => (Panic, g)
          | Try addr =>
              match g_sst g idx addr len (TAllocateRespectingOwnership image device) with
              | (Ok _, g') => (Ok addr, g')
              | (Err InvalidStateTransition, g') | (Err BlockOutsideRange, g') =>
                  bottom_up_loop g' rest ty align_shift len image device max_address
              | (Err OutOfSpace, g') => (Err OutOfResources, g')
              | (Err AlreadyExists, g') | (Panic, g') => (Panic, g')
              end
          end
      end
  end.

Definition allocate_bottom_up (g : gcd) (ty : mem_type) (align_shift len image : N) (device : option N)
  (max_address : N) : res efi_error N * gcd :=
  if len =? 0 then (Err InvalidParameter, g)
  else match ushift_amount (E := efi_error) (g_dbg g) align_shift with
       | Ok _ => bottom_up_loop g (map b_base (g_blocks g)) ty align_shift len image device max_address
       | _ => (Panic, g)
       end.

(** spin_locked_gcd.rs:753-780: body of the top-down loop up to the split; [Stop] is the [break]. *)
Definition top_down_candidate (dbg : bool) (mb : mblock) (ty : mem_type) (align_shift len max_address : N)
  : candidate :=
  let usable :=
    if max_address <? b_end mb - 1
    then (if max_address <? b_base mb then None else Some (max_address - b_base mb + 1))
    else Some (b_len mb) in
  match usable with
  | None => CPanic                       (* checked_sub(..).unwrap() *)
  | Some usable_len =>
      if usable_len <? len then Skip
      else
        match ushift_amount (E := efi_error) dbg align_shift with
        | Ok sh =>
            let addr := mask_down (b_base mb + usable_len - len) sh in
            if addr <? b_base mb then Skip
            else if negb (mt_eqb (ms_type (b_st mb)) ty) then Skip
            else if addr =? 0 then Stop (if max_address =? u64_max then OutOfResources else NotFound)
            else Try addr
        | _ => CPanic
        end
  end.

Fixpoint top_down_loop (g : gcd) (keys : list N) (ty : mem_type) (align_shift len image : N)
  (device : option N) (max_address : N) : res efi_error N * gcd :=
  match keys with
  | [] => (if max_address =? u64_max then Err OutOfResources else Err NotFound, g)
  | idx :: rest =>
      match lookup (g_blocks g) idx with
      | None => (Panic, g)
      | Some mb =>
          match top_down_candidate (g_dbg g) mb ty align_shift len max_address with
          | Skip => top_down_loop g rest ty align_shift len image device max_address
          | Stop e => (Err e, g)
          | CPanic => (Panic, g)
          | Try addr =>
              match g_sst g idx addr len (TAllocateRespectingOwnership image device) with
              | (Ok _, g') => (Ok addr, g')
              | (Err InvalidStateTransition, g') | (Err BlockOutsideRange, g') =>
                  top_down_loop g' rest ty align_shift len image device max_address
              | (Err OutOfSpace, g') => (Err OutOfResources, g')
              | (Err AlreadyExists, g') | (Panic, g') => (Panic, g')
              end
          end
      end
  end.

(** The keys visited by [get_closest_idx(max_address)] followed by [prev_idx], lines 751-797. *)
Definition keys_down_from (l : list mblock) (max_address : N) : list N :=
  rev (filter (fun k => k <=? max_address) (map b_base l)).

(** spin_locked_gcd.rs:747-798: the search proper. *)
Definition top_down_search (g : gcd) (ty : mem_type) (align_shift len image : N) (device : option N)
  (max_address : N) : res efi_error N * gcd :=
  top_down_loop g (keys_down_from (g_blocks g) max_address) ty align_shift len image device max_address.

(** spin_locked_gcd.rs:718-799 [allocate_top_down].  The recursive call at line 732 has
    max_address = u32::MAX and therefore does not recurse again. *)
Definition allocate_top_down (g : gcd) (ty : mem_type) (align_shift len image : N) (device : option N)
  (max_address : N) : res efi_error N * gcd :=
  if len =? 0 then (Err InvalidParameter, g)
  else if g_prio32 g && (U32_MAX <? max_address) then
    match top_down_search g ty align_shift len image device U32_MAX with
    | (Ok a, g') => (Ok a, g')
    | (Err _, g') => top_down_search g' ty align_shift len image device max_address
    | (Panic, g') => (Panic, g')
    end
  else top_down_search g ty align_shift len image device max_address.

(** spin_locked_gcd.rs:60-68 [AllocateType]. *)
Inductive alloc_type : Type :=
| BottomUp (max : option N)
| TopDown (max : option N)
| AtAddress (address : N).

(** spin_locked_gcd.rs:497-571 [allocate_memory_space], [..._internal] and [..._null]. *)
Definition allocate_memory_space (g : gcd) (at_ : alloc_type) (ty : mem_type) (align_shift len image : N)
  (device : option N) : res efi_error N * gcd :=
  if g_locked g then (debug_fail (g_dbg g) (Err AccessDenied), g)
  else if g_max g =? 0 then (Err NotReady, g)
  else if (len =? 0) || (image =? 0) || mt_eqb ty Unaccepted then (Err InvalidParameter, g)
  else match at_ with
  | BottomUp m =>
      allocate_bottom_up g ty align_shift len image device (match m with Some a => a | None => u64_max end)
  | TopDown m =>
      allocate_top_down g ty align_shift len image device (match m with Some a => a | None => u64_max end)
  | AtAddress a =>
      match uadd (E := efi_error) (g_dbg g) a len with
      | Ok e => if g_max g <? e then (Err NotFound, g)
                else allocate_address g ty align_shift len image device a
      | _ => (Panic, g)
      end
  end.

(** spin_locked_gcd.rs:1042-1056 [get_memory_descriptor_for_address]. *)
Definition get_memory_descriptor_for_address (g : gcd) (a : N) : res efi_error mblock :=
  if g_max g =? 0 then Err NotReady
  else match closest (g_blocks g) a with
       | None => Err NotFound
       | Some k => match lookup (g_blocks g) k with Some b => Ok b | None => Panic end
       end.

(** spin_locked_gcd.rs:573-622 [free_memory_space_worker]. *)
Definition free_memory_space_worker (g : gcd) (base len : N) (t : transition) : res efi_error unit * gcd :=
  match check_range g base len true with
  | Ok _ =>
      match closest (g_blocks g) base with
      | None => (Err NotFound, g)
      | Some idx =>
          match g_sst g idx base len t with
          | (Err InvalidStateTransition, g') | (Err BlockOutsideRange, g') => (Err NotFound, g')
          | (Err OutOfSpace, g') => (Err OutOfResources, g')
          | (Err AlreadyExists, g') | (Panic, g') => (Panic, g')
          | (Ok _, g') =>
              match get_memory_descriptor_for_address g' base with
              | Ok d =>
                  match set_gcd_memory_attributes g' base len
                          (N.lor MEMORY_RP (N.land (ms_attrs (b_st d)) CACHE_ATTRIBUTE_MASK)) with
                  | (Ok _, g'') => (Ok tt, g'')
                  | (Err e, g'') => (debug_fail (g_dbg g) (Err e), g'')
                  | (Panic, g'') => (Panic, g'')
                  end
              | Err e => (Err e, g')
              | Panic => (Panic, g')
              end
          end
      end
  | Err e => (Err e, g)
  | Panic => (Panic, g)
  end.

(** spin_locked_gcd.rs:855-870 and 624-642 (the locked variant is a silent success). *)
Definition free_memory_space (g : gcd) (base len : N) : res efi_error unit * gcd :=
  if g_locked g then (Ok tt, g) else free_memory_space_worker g base len TFree.
Definition free_memory_space_preserving_ownership (g : gcd) (base len : N) : res efi_error unit * gcd :=
  if g_locked g then (Ok tt, g) else free_memory_space_worker g base len TFreePreservingOwnership.

(** spin_locked_gcd.rs:441-464: the part of [add_memory_space] after the initialisation branch. *)
Definition add_to_blocks (g : gcd) (ty : mem_type) (base len caps : N) : res efi_error N * gcd :=
  match closest (g_blocks g) base with
  | None => (Err NotFound, g)
  | Some idx =>
      match lookup (g_blocks g) idx with
      | None => (Err NotFound, g)
      | Some b =>
          if negb (mt_eqb (ms_type (b_st b)) NonExistent) then (Err AccessDenied, g)
          else
            match g_sst g idx base len (TAdd ty caps MEMORY_RP) with
            | (Ok i, g') => (Ok i, g')
            | (Err BlockOutsideRange, g') => (Err AccessDenied, g')
            | (Err InvalidStateTransition, g') => (Err InvalidParameter, g')
            | (Err OutOfSpace, g') => (Err OutOfResources, g')
            | (Err AlreadyExists, g') | (Panic, g') => (Panic, g')
            end
      end
  end.

(** spin_locked_gcd.rs:414-436: argument checks of [add_memory_space] ([checked_add]: no wrap). *)
Definition add_checks (g : gcd) (base len : N) : res efi_error unit :=
  if g_max g =? 0 then Err NotReady
  else if len =? 0 then Err InvalidParameter
  else if (two64 <=? base + len) || (g_max g <? base + len) then Err Unsupported
  else Ok tt.

(** Lines 430-436. *)
Definition extend_caps (ty : mem_type) (caps : N) : N :=
  let c := N.lor caps (N.lor MEMORY_ACCESS_MASK MEMORY_RUNTIME) in
  if mt_eqb ty MemoryMappedIo then N.lor c MEMORY_ISA_VALID else c.

(** [Ok(_) | Err(NotReady) => Ok(()), Err(err) => Err(err)], lines 372-379 and 393-400. *)
Definition ignore_not_ready {A} (r : res efi_error A) : res efi_error unit :=
  match r with
  | Ok _ | Err NotReady => Ok tt
  | Err e => Err e
  | Panic => Panic
  end.

(** The descriptor of the initial block, lines 358-363. *)
Definition initial_state : mstate := mkMs false NonExistent 0 0 0 0.

(** spin_locked_gcd.rs:340-404 [init_memory_blocks].  [caps] has already been extended by the caller;
    the inner [add_memory_space] extends it again (idempotent) and repeats the checks. *)
Definition init_memory_blocks (g : gcd) (ty : mem_type) (base len caps : N) : res efi_error N * gcd :=
  if g_max g =? 0 then (Err NotReady, g)
  else if negb (mt_eqb ty SystemMemory && (slice_size g <=? len)) then (Err OutOfResources, g)
  else
    let g0 := mkGcd (g_dbg g) (g_nodesz g) (g_max g) MEMORY_BLOCK_SLICE_LEN
                    [mkBlock 0 (g_max g) initial_state] (g_locked g) (g_prio32 g) in
    match add_checks g0 base len with
    | Ok _ =>
      match add_to_blocks g0 ty base len (extend_caps ty caps) with
      | (Ok idx, g1) =>
          let (r2, g2) := set_memory_space_attributes g1 base len (N.lor MEMORY_WB MEMORY_XP) in
          match ignore_not_ready r2 with
          | Ok _ =>
              match allocate_memory_space g2 (AtAddress base) SystemMemory 12 (slice_size g)
                                          BS_DATA_HANDLE None with
              | (Ok _, g3) =>
                  if slice_size g <? len then
                    let (r4, g4) := set_memory_space_attributes g3 (base + slice_size g) (len - slice_size g)
                                                               (N.lor MEMORY_WB MEMORY_RP) in
                    match ignore_not_ready r4 with
                    | Ok _ => (Ok idx, g4)
                    | Err e => (Err e, g4)
                    | Panic => (Panic, g4)
                    end
                  else (Ok idx, g3)
              | (Err e, g3) => (Err e, g3)
              | (Panic, g3) => (Panic, g3)
              end
          | Err e => (Err e, g2)
          | Panic => (Panic, g2)
          end
      | (Err e, g1) => (Err e, g1)
      | (Panic, g1) => (Panic, g1)
      end
    | Err e => (Err e, g0)
    | Panic => (Panic, g0)
    end.

(** spin_locked_gcd.rs:414-465 [add_memory_space].  The returned index is the base of the block. *)
Definition add_memory_space (g : gcd) (ty : mem_type) (base len caps : N) : res efi_error N * gcd :=
  match add_checks g base len with
  | Ok _ =>
      let caps' := extend_caps ty caps in
      if g_cap g =? 0 then init_memory_blocks g ty base len caps'
      else add_to_blocks g ty base len caps'
  | Err e => (Err e, g)
  | Panic => (Panic, g)
  end.

(** spin_locked_gcd.rs:471-495 [remove_memory_space]. *)
Definition remove_memory_space (g : gcd) (base len : N) : res efi_error unit * gcd :=
  match check_range g base len false with
  | Ok _ =>
      match closest (g_blocks g) base with
      | None => (Err NotFound, g)
      | Some idx =>
          match lookup (g_blocks g) idx with
          | None => (Err NotFound, g)
          | Some b =>
              match g_sst g idx base len TRemove with
              | (Ok _, g') => (Ok tt, g')
              | (Err BlockOutsideRange, g') => (Err NotFound, g')
              | (Err InvalidStateTransition, g') =>
                  (Err (if ms_alloc (b_st b) then AccessDenied else NotFound), g')
              | (Err OutOfSpace, g') => (Err OutOfResources, g')
              | (Err AlreadyExists, g') | (Panic, g') => (Panic, g')
              end
          end
      end
  | Err e => (Err e, g)
  | Panic => (Panic, g)
  end.

(** spin_locked_gcd.rs:974-995 [get_memory_descriptors]: the blocks in key order. *)
Definition get_memory_descriptors (g : gcd) : res efi_error (list mblock) :=
  if g_max g =? 0 then Err NotReady else Ok (g_blocks g).

(** ** Call histories *)
Inductive gcd_op : Type :=
| OpAdd (ty : mem_type) (base len caps : N)
| OpRemove (base len : N)
| OpAllocate (at_ : alloc_type) (ty : mem_type) (align_shift len image : N) (device : option N)
| OpFree (base len : N)
| OpFreePreserving (base len : N)
| OpSetAttributes (base len attrs : N)
| OpSetCapabilities (base len caps : N)
| OpLock
| OpUnlock.

(** Outcome of a call as seen by the caller; addresses are kept, unit results are 0. *)
Definition lift_unit (r : res efi_error unit * gcd) : res efi_error N * gcd :=
  match r with
  | (Ok _, g) => (Ok 0, g)
  | (Err e, g) => (Err e, g)
  | (Panic, g) => (Panic, g)
  end.

Definition gcd_step (g : gcd) (o : gcd_op) : res efi_error N * gcd :=
  match o with
  | OpAdd ty b l c => add_memory_space g ty b l c
  | OpRemove b l => lift_unit (remove_memory_space g b l)
  | OpAllocate a ty s l i d => allocate_memory_space g a ty s l i d
  | OpFree b l => lift_unit (free_memory_space g b l)
  | OpFreePreserving b l => lift_unit (free_memory_space_preserving_ownership g b l)
  | OpSetAttributes b l a => lift_unit (set_memory_space_attributes g b l a)
  | OpSetCapabilities b l c => lift_unit (set_memory_space_capabilities g b l c)
  | OpLock => (Ok 0, lock_memory_space g)
  | OpUnlock => (Ok 0, unlock_memory_space g)
  end.

(** A history of calls: [None] once a call has panicked (the firmware stops there). *)
Fixpoint gcd_run (g : gcd) (ops : list gcd_op) : option gcd :=
  match ops with
  | [] => Some g
  | o :: r =>
      match gcd_step g o with
      | (Panic, _) => None
      | (_, g') => gcd_run g' r
      end
  end.
