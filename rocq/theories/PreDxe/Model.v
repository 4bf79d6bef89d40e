(** Reserving what the phases before DXE allocated: patina_dxe_core/src/allocator.rs:782-993
    [process_hob_allocations] and 1004-1065 [init_memory_support] after the resource descriptors
    (Boot/), on top of the allocators of Alloc/.  The hand-off blocks come decoded (Hob/ has the
    bytes); log messages are left out. *)
From Verif Require Import Base.Prelude Gcd.Blocks Gcd.Model Alloc.Model.
Local Open Scope N_scope.

(** sdk/patina_pi/src/hob.rs: the hand-off blocks this code tells apart.  MemoryAllocation and
    MemoryAllocationModule are [PAlloc]; FirmwareVolume, FirmwareVolume2 and FirmwareVolume3 are
    [PVolume]. *)
Inductive phob :=
| PAlloc (ty base len : N)
| PVolume (base len : N)
| POther.

(** What differs between platforms: the architecture, allocator.rs:60-66; the handle the protocol
    database makes for a memory type without a fixed one, 366-371; and the blocks the core takes from
    its own heap to make a new allocator (the box of 327, the map's node of 310, the handle): sizes and
    alignments, with the heap's choices of places. *)
Record platform := Platform {
  p_aarch64 : bool;
  p_fresh : N -> N;
  p_boxes : N -> list (N * N);
  p_place : nat -> nat -> nat -> option N }.

(** allocator.rs:309-315, and 72-113 for the static allocators. *)
Definition granularity_for (p : platform) (ty : N) : N :=
  if ((ty =? 0) || (ty =? 5) || (ty =? 6) || (ty =? 10)) && p_aarch64 p then 0x10000 else 0x1000.

(** allocator.rs:347-374 [handle_for_memory_type] with the handles of protocol_db.rs:28-37; the types 5
    and 6 have static allocators, whose handle line 361-365 finds.  [None]: no such memory type. *)
Definition handle_for (p : platform) (ty : N) : option N :=
  if ty =? 0 then Some 2
  else if ty =? 1 then Some 3
  else if ty =? 2 then Some 4
  else if ty =? 3 then Some 5
  else if ty =? 4 then Some 6
  else if ty =? 5 then Some 7
  else if ty =? 6 then Some 8
  else if ty =? 9 then Some 9
  else if ty =? 10 then Some 10
  else if (14 <=? ty) && (ty <=? 0x6FFFFFFF) then None
  else Some (p_fresh p ty).

Definition DXE_CORE_HANDLE : N := 1.

(** The core's own allocations, from the allocator of boot services data (allocator.rs:72-82); when one
    fails Rust's allocation error handler panics. *)
Fixpoint take_boxes (dbg : bool) (p : platform) (s : sys) (l : list (N * N)) (i : nat) : option sys :=
  match l with
  | [] => Some s
  | (size, align) :: l' =>
    match sys_step dbg s (SAlloc 4 size align (p_place p i)) with
    | (Value _ _, s') => take_boxes dbg p s' l' (S i)
    | _ => None
    end
  end.

(** allocator.rs:287-328 [get_or_create_allocator]; [None]: panic. *)
Definition get_or_create (dbg : bool) (p : platform) (s : sys) (ty handle : N) : option sys :=
  if existsb (fun a => al_type a =? ty) (s_als s) then Some s
  else match take_boxes dbg p s (p_boxes p ty) 0 with
       | Some s' => Some (snd (sys_step dbg s' (SCreate ty handle (granularity_for p ty))))
       | None => None
       end.

(** allocator.rs:461-520 [core_allocate_pages] with ALLOCATE_ADDRESS and no alignment; the memory
    attributes table of 509-517 is not there yet. *)
Definition core_allocate_pages_at (dbg : bool) (p : platform) (s : sys) (ty pages address : N) : sout * sys :=
  if (ty =? 7) || (ty =? 14) || (ty =? 15) then (Failed InvalidParameter, s)
  else match handle_for p ty with
       | None => (Failed InvalidParameter, s)
       | Some h =>
         match get_or_create dbg p s ty h with
         | Some s' => sys_step dbg s' (SPages ty (AtAddress address) pages 0x1000)
         | None => (Crashed, s)
         end
       end.

(** Errors are only logged. *)
Definition carry_on (x : sout * sys) : option sys := match fst x with Crashed => None | _ => Some (snd x) end.

(** allocator.rs:785-901, one memory allocation; [None]: panic. *)
Definition process_allocation (dbg : bool) (p : platform) (s : sys) (ty base len : N) : option sys :=
  if ty =? 7 then Some s                                                      (* 799-806 *)
  else if len =? 0 then Some s
  else if base =? 0 then Some s
  else if negb (N.land base 0xFFF =? 0) || negb (N.land len 0xFFF =? 0) then Some s
  else match get_memory_descriptor_for_address (s_g s) base with
       | Ok d =>
         if (b_base d =? base) && (b_len d =? len) && negb (ms_image (b_st d) =? 0) then Some s  (* 837-848 *)
         else match ms_type (b_st d) with
              | SystemMemory =>
                match size_to_pages dbg len with
                | Ok n => carry_on (core_allocate_pages_at dbg p s ty n base)
                | _ => None
                end
              | NonExistent | Unaccepted => Some s
              | t => carry_on (sys_step dbg s (SGcd (OpAllocate (AtAddress base) t 0 len DXE_CORE_HANDLE None)))
              end
       | Err _ => Some s
       | Panic => None
       end.

(** allocator.rs:903-957, one firmware volume. *)
Definition process_volume (dbg : bool) (s : sys) (base len : N) : option sys :=
  match get_memory_descriptor_for_address (s_g s) base with
  | Panic => None
  | Ok d =>
    if negb (mt_eqb (ms_type (b_st d)) MemoryMappedIo) || negb (ms_image (b_st d) =? 0) then Some s
    else carry_on (sys_step dbg s (SGcd (OpAllocate (AtAddress base) MemoryMappedIo 0 len DXE_CORE_HANDLE None)))
  | Err _ => carry_on (sys_step dbg s (SGcd (OpAllocate (AtAddress base) MemoryMappedIo 0 len DXE_CORE_HANDLE None)))
  end.

Definition process_one (dbg : bool) (p : platform) (s : sys) (h : phob) : option sys :=
  match h with
  | PAlloc ty base len => process_allocation dbg p s ty base len
  | PVolume base len => process_volume dbg s base len
  | POther => Some s
  end.

Fixpoint process_list (dbg : bool) (p : platform) (s : sys) (l : list phob) : option sys :=
  match l with
  | [] => Some s
  | h :: l' => match process_one dbg p s h with Some s' => process_list dbg p s' l' | None => None end
  end.

(** allocator.rs:963-992: page zero. *)
Definition take_page_zero (dbg : bool) (p : platform) (s : sys) : option sys :=
  match get_memory_descriptor_for_address (s_g s) 0 with
  | Ok d => match ms_type (b_st d) with
            | SystemMemory => carry_on (core_allocate_pages_at dbg p s 4 1 0)
            | _ => Some s
            end
  | Err _ => Some s
  | Panic => None
  end.

(** allocator.rs:782-993 [process_hob_allocations]. *)
Definition process_hob_allocations (dbg : bool) (p : platform) (s : sys) (l : list phob) : option sys :=
  match process_list dbg p s l with Some s' => take_page_zero dbg p s' | None => None end.

(** allocator.rs:1035-1063: the buckets of the memory type information, type and pages. *)
Fixpoint make_buckets (dbg : bool) (p : platform) (s : sys) (l : list (N * N)) : option sys :=
  match l with
  | [] => Some s
  | (ty, pages) :: l' =>
    if pages =? 0 then make_buckets dbg p s l'
    else match handle_for p ty with
         | None => make_buckets dbg p s l'
         | Some h =>
           match get_or_create dbg p s ty h with
           | None => None
           | Some s1 => match carry_on (sys_step dbg s1 (SReserve ty pages)) with
                        | Some s2 => make_buckets dbg p s2 l'
                        | None => None
                        end
           end
         end
  end.

(** allocator.rs:1004-1065 [init_memory_support] from line 1013 on. *)
Definition init_memory (dbg : bool) (p : platform) (s : sys) (l : list phob) (buckets : list (N * N)) : option sys :=
  match process_hob_allocations dbg p s l with Some s' => make_buckets dbg p s' buckets | None => None end.
