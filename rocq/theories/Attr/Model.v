(** Memory protection services on top of the memory map and the page table of [Gcd.Spin]:
    - the UEFI memory attribute protocol, patina_dxe_core/src/memory_attributes_protocol.rs:26-190;
    - the page attributes of the component memory manager, patina_dxe_core/src/memory_manager.rs:94-192;
    - the protections of loaded images and of their stacks, patina_dxe_core/src/image.rs:74-144, 370-489, 728-755;
    - the UEFI memory attributes table, patina_dxe_core/src/config_tables/memory_attributes_table.rs:147-187.
    Log output is not modelled. *)
From Verif Require Import Base.Prelude Align.Model Alloc.Model MemMap.Model Gcd.Blocks Gcd.Model Gcd.Spin.
Local Open Scope N_scope.

(** efi::Status, the values these services return. *)
Inductive status := StSuccess | StInvalidParameter | StUnsupported | StNoMapping.

(** The end of a call: it returns [a], panics, or never returns. *)
Inductive call (A : Type) := Done (a : A) | Crashed | Stuck.
Arguments Done {A} a.
Arguments Crashed {A}.
Arguments Stuck {A}.

(** [a & !b], for [a] of 64 bits. *)
Definition without (a b : N) : N := N.ldiff a b.

(** ** The common loop

    memory_attributes_protocol.rs:92-128, 152-188 and memory_manager.rs:128-158: walk the range descriptor by
    descriptor, computing the new attributes of each part from its old ones with [f]. *)
Inductive walk := WDone | WNoDescriptor | WRefused.

Fixpoint walk_loop (fuel : nat) (s : spin) (cur range_end : N) (f : N -> N) : call walk * spin :=
  match fuel with
  | O => (Stuck, s)
  | S fuel' =>
      if range_end <=? cur then (Done WDone, s)
      else
        match get_memory_descriptor_for_address (sp_gcd s) cur with
        | Err _ => (Done WNoDescriptor, s)
        | Panic => (Crashed, s)
        | Ok d =>
            match uadd (E := efi_error) (s_dbg s) (b_base d) (b_len d) with
            | Ok d_end =>
                let next := N.min d_end range_end in
                match usub (E := efi_error) (s_dbg s) next cur with
                | Ok n =>
                    match dxe_set_attributes s cur n (f (ms_attrs (b_st d))) with
                    | (SOk _, s1) => walk_loop fuel' s1 next range_end f
                    | (SErr _, s1) => (Done WRefused, s1)
                    | (SPanic, s1) => (Crashed, s1)
                    | (SHang, s1) => (Stuck, s1)
                    end
                | _ => (Crashed, s)
                end
            | _ => (Crashed, s)
            end
        end
  end.

(** Enough turns for every range within the address space (see [Gcd.Spin.attrs_fuel]). *)
Definition walk_range (s : spin) (base len : N) (f : N -> N) : call walk * spin :=
  match uadd (E := efi_error) (s_dbg s) base len with
  | Ok range_end => walk_loop (attrs_fuel s) s base range_end f
  | _ => (Crashed, s)
  end.

(** ** The memory attribute protocol *)

Definition misaligned (base len : N) : bool :=
  negb (N.land base UEFI_PAGE_MASK =? 0) || negb (N.land len UEFI_PAGE_MASK =? 0).

(** memory_attributes_protocol.rs:26-70 [get_memory_attributes].  [out] tells whether the attributes pointer is not
    null; the value written through it is returned beside the status. *)
Definition get_memory_attributes (s : spin) (base len : N) (out : bool) : call (status * option N) :=
  if misaligned base len then Done (StInvalidParameter, None)
  else if negb out then Done (StInvalidParameter, None)
  else
    match get_memory_descriptor_for_address (sp_gcd s) base with
    | Ok d =>
        if negb (b_base d =? base) || negb (b_len d =? len) then Done (StNoMapping, None)
        else Done (StSuccess, Some (N.land (ms_attrs (b_st d)) MEMORY_ACCESS_MASK))
    | Err _ => Done (StNoMapping, None)
    | Panic => Crashed
    end.

(** Lines 79-88 and 139-148. *)
Definition bad_request (base len attrs : N) : bool :=
  misaligned base len || (attrs =? 0) || negb (N.land attrs MEMORY_ACCESS_MASK =? attrs).

Definition walk_status (r : call walk) : call status :=
  match r with
  | Done WDone => Done StSuccess
  | Done _ => Done StUnsupported
  | Crashed => Crashed
  | Stuck => Stuck
  end.

(** memory_attributes_protocol.rs:72-130 [set_memory_attributes]. *)
Definition set_memory_attributes (s : spin) (base len attrs : N) : call status * spin :=
  if bad_request base len attrs then (Done StInvalidParameter, s)
  else let (r, s') := walk_range s base len (fun a => N.lor a attrs) in (walk_status r, s').

(** memory_attributes_protocol.rs:132-190 [clear_memory_attributes]. *)
Definition clear_memory_attributes (s : spin) (base len attrs : N) : call status * spin :=
  if bad_request base len attrs then (Done StInvalidParameter, s)
  else let (r, s') := walk_range s base len (fun a => without a attrs) in (walk_status r, s').

(** ** The page attributes of the memory manager *)

(** sdk/patina/src/component/service/memory.rs:690-705, 741-753 and 780-799: the types of the service. *)
Inductive access := NoAccess | ReadOnly | ReadWrite | ReadExecute | ReadWriteExecute.
Inductive caching := Uncached | WriteCombining | WriteBack | WriteThrough | WriteProtect.
Inductive mem_error := MInvalidPageCount | MUnalignedAddress | MUnsupportedAttributes | MInvalidAddress
                     | MInconsistentRangeAttributes | MInternalError.

Definition MEMORY_UC : N := 0x1.
Definition MEMORY_WC : N := 0x2.
Definition MEMORY_WT : N := 0x4.
Definition MEMORY_WP : N := 0x1000.

(** memory_manager.rs:109-115. *)
Definition access_attributes (a : access) : option N :=
  match a with
  | NoAccess => Some MEMORY_RP
  | ReadOnly => Some (N.lor MEMORY_RO MEMORY_XP)
  | ReadWrite => Some MEMORY_XP
  | ReadExecute => Some MEMORY_RO
  | ReadWriteExecute => None
  end.

(** memory_manager.rs:117-122; [None] is an unsupported type. *)
Definition cache_attributes (c : caching) : option N :=
  match c with
  | Uncached => Some MEMORY_UC
  | WriteBack => Some MEMORY_WB
  | WriteCombining => Some MEMORY_WC
  | WriteThrough => Some MEMORY_WT
  | WriteProtect => None
  end.

(** memory_manager.rs:144-151. *)
Definition page_attributes (access_bits : N) (cache_bits : option N) (a : N) : N :=
  let n := N.lor (without a MEMORY_ACCESS_MASK) access_bits in
  match cache_bits with
  | Some c => N.lor (without n CACHE_ATTRIBUTE_MASK) c
  | None => n
  end.

Definition walk_result (r : call walk) : call (option mem_error) :=
  match r with
  | Done WDone => Done None
  | Done WNoDescriptor => Done (Some MInvalidAddress)
  | Done WRefused => Done (Some MInternalError)
  | Crashed => Crashed
  | Stuck => Stuck
  end.

(** [usize] multiplication: overflow panics in a debug build and wraps in a release build. *)
Definition umul (dbg : bool) (a b : N) : res efi_error N :=
  if a * b <? two64 then Ok (a * b) else if dbg then Panic else Ok ((a * b) mod two64).

(** memory_manager.rs:94-161 [set_page_attributes]; [Done None] is success. *)
Definition set_page_attributes (s : spin) (address page_count : N) (acc : access) (cch : option caching)
  : call (option mem_error) * spin :=
  if page_count =? 0 then (Done (Some MInvalidPageCount), s)
  else if negb (address mod UEFI_PAGE_SIZE =? 0) then (Done (Some MUnalignedAddress), s)
  else
    match access_attributes acc with
    | None => (Done (Some MUnsupportedAttributes), s)
    | Some ab =>
        let run cb :=
          match umul (s_dbg s) page_count UEFI_PAGE_SIZE with
          | Ok len => let (r, s') := walk_range s address len (page_attributes ab cb) in (walk_result r, s')
          | _ => (Crashed, s)
          end in
        match cch with
        | None => run None
        | Some c =>
            match cache_attributes c with
            | None => (Done (Some MUnsupportedAttributes), s)
            | Some cb => run (Some cb)
            end
        end
    end.

(** sdk/patina/src/component/service/memory.rs:719-734 [AccessType::from_efi_attributes]. *)
Definition access_of (a : N) : access :=
  if negb (N.land a MEMORY_RP =? 0) then NoAccess
  else
    let r := N.land a (N.lor MEMORY_RO MEMORY_XP) in
    if r =? MEMORY_RO then ReadExecute
    else if r =? MEMORY_XP then ReadWrite
    else if r =? N.lor MEMORY_RO MEMORY_XP then ReadOnly
    else ReadWriteExecute.

(** memory.rs:765-774 [CachingType::from_efi_attributes]. *)
Definition caching_of (a : N) : option caching :=
  let c := N.land a CACHE_ATTRIBUTE_MASK in
  if c =? MEMORY_WB then Some WriteBack
  else if c =? MEMORY_WC then Some WriteCombining
  else if c =? MEMORY_WT then Some WriteThrough
  else if c =? MEMORY_UC then Some Uncached
  else if c =? MEMORY_WP then Some WriteProtect
  else None.

(** memory_manager.rs:163-192 [get_page_attributes]. *)
Definition get_page_attributes (s : spin) (address page_count : N) : call (res mem_error (access * caching)) :=
  if page_count =? 0 then Done (Err MInvalidPageCount)
  else if negb (address mod UEFI_PAGE_SIZE =? 0) then Done (Err MUnalignedAddress)
  else
    match umul (s_dbg s) page_count UEFI_PAGE_SIZE with
    | Ok len =>
        match get_memory_descriptor_for_address (sp_gcd s) address with
        | Err _ => Done (Err MInvalidAddress)
        | Panic => Crashed
        | Ok d =>
            match uadd (E := efi_error) (s_dbg s) address len, uadd (E := efi_error) (s_dbg s) (b_base d) (b_len d) with
            | Ok e, Ok de =>
                if de <? e then Done (Err MInconsistentRangeAttributes)
                else Done (Ok (access_of (ms_attrs (b_st d)),
                               match caching_of (ms_attrs (b_st d)) with Some c => c | None => WriteBack end))
            | _, _ => Crashed
            end
        end
    | _ => Crashed
    end.

(** ** Images *)

(** The fields of a section header that matter here: virtual address, virtual size (both 32 bits) and
    characteristics. *)
Record section := Sect { sc_va : N; sc_size : N; sc_chars : N }.

(** crate goblin: IMAGE_SCN_CNT_CODE, IMAGE_SCN_MEM_READ, IMAGE_SCN_MEM_WRITE. *)
Definition CNT_CODE : N := 0x20.
Definition MEM_READ : N := 0x40000000.
Definition MEM_WRITE : N := 0x80000000.

(** efi::MEMORY_ATTRIBUTE_MASK of the crate r-efi, MEMORY_ACCESS_MASK | MEMORY_SP | MEMORY_CPU_CRYPTO of the UEFI
    specification. *)
Definition MEMORY_ATTRIBUTE_MASK : N := 0xE6000.

(** image.rs:372-381. *)
Definition section_attributes (chars : N) : N :=
  let a := if N.land chars CNT_CODE =? CNT_CODE then MEMORY_RO else MEMORY_XP in
  if (N.land chars MEM_WRITE =? 0) && (N.land chars MEM_READ =? MEM_READ) then N.lor a MEMORY_RO else a.

(** image.rs:371-446, one section of [apply_image_memory_protections].  [SOk] goes on to the next section. *)
Definition protect_section (s : spin) (image_base alignment : N) (c : section) : sout unit * spin :=
  match uadd (E := efi_error) (s_dbg s) image_base (sc_va c) with
  | Ok base =>
      match get_memory_descriptor_for_address (sp_gcd s) base with
      | Panic => (SPanic, s)
      | Err _ => assert_then s (SOk tt)
      | Ok d =>
          let a := section_attributes (sc_chars c) in
          match align_up 32 (sc_size c) alignment with
          | Ok size =>
              let (r, s1) := spin_set_capabilities s base size (N.lor a (ms_caps (b_st d))) in
              match r with
              | SPanic => (SPanic, s1)
              | SHang => (SHang, s1)
              | _ =>
                  match dxe_set_attributes s1 base size (N.lor a (without (ms_attrs (b_st d)) MEMORY_ACCESS_MASK)) with
                  | (SErr _, s2) => (SOk tt, s2)
                  | x => x
                  end
              end
          | _ => assert_then s (SOk tt)
          end
      end
  | _ => (SPanic, s)
  end.

(** image.rs:450-487, one section of [remove_image_memory_protections]. *)
Definition unprotect_section (s : spin) (image_base alignment : N) (c : section) : sout unit * spin :=
  match uadd (E := efi_error) (s_dbg s) image_base (sc_va c) with
  | Ok base =>
      match get_memory_descriptor_for_address (sp_gcd s) base with
      | Panic => (SPanic, s)
      | Err _ => (SOk tt, s)
      | Ok d =>
          match align_up 32 (sc_size c) alignment with
          | Ok size =>
              match dxe_set_attributes s base size (N.lor (without (ms_attrs (b_st d)) MEMORY_ATTRIBUTE_MASK) MEMORY_XP) with
              | (SErr _, s2) => (SOk tt, s2)
              | x => x
              end
          | _ => assert_then s (SOk tt)
          end
      end
  | _ => (SPanic, s)
  end.

Fixpoint each_section (f : spin -> section -> sout unit * spin) (s : spin) (l : list section) : sout unit * spin :=
  match l with
  | [] => (SOk tt, s)
  | c :: r => match f s c with (SOk _, s') => each_section f s' r | x => x end
  end.

(** image.rs:370-447 and 449-489. *)
Definition apply_protections (s : spin) (image_base alignment : N) (l : list section) : sout unit * spin :=
  each_section (fun s c => protect_section s image_base alignment c) s l.
Definition remove_protections (s : spin) (image_base alignment : N) (l : list section) : sout unit * spin :=
  each_section (fun s c => unprotect_section s image_base alignment c) s l.

(** image.rs:85-99, the guard page of [ImageStack::new], once its pages are allocated at [stack].  A failure is only
    logged. *)
Definition guard_stack (s : spin) (stack : N) : sout unit * spin :=
  match get_memory_descriptor_for_address (sp_gcd s) stack with
  | Panic => (SPanic, s)
  | r =>
      let a := match r with Ok d => ms_attrs (b_st d) | _ => DEFAULT_CACHE_ATTR end in
      match dxe_set_attributes s stack UEFI_PAGE_SIZE (N.lor a MEMORY_RP) with
      | (SErr _, s') => (SOk tt, s')
      | x => x
      end
  end.

(** image.rs:112-132, the first half of [ImageStack::drop]. *)
Definition unguard_stack (s : spin) (stack : N) : sout unit * spin :=
  match get_memory_descriptor_for_address (sp_gcd s) stack with
  | Panic => (SPanic, s)
  | r =>
      let a := match r with Ok d => without (ms_attrs (b_st d)) MEMORY_ATTRIBUTE_MASK | _ => DEFAULT_CACHE_ATTR end in
      match dxe_set_attributes s stack UEFI_PAGE_SIZE (N.lor a MEMORY_XP) with
      | (SErr _, s') => (SOk tt, s')
      | x => x
      end
  end.

(** image.rs:731-755, one runtime image of [runtime_image_protection_fixup_ebs]: [base] and [len] are its pages. *)
Definition fixup_runtime_image (s : spin) (base len : N) : sout unit * spin :=
  match get_memory_descriptor_for_address (sp_gcd s) base with
  | Panic => (SPanic, s)
  | r =>
      let a := match r with Ok d => N.land (ms_attrs (b_st d)) CACHE_ATTRIBUTE_MASK | _ => DEFAULT_CACHE_ATTR end in
      match dxe_set_attributes s base len a with
      | (SErr _, s') => assert_then s' (SOk tt)
      | x => x
      end
  end.

(** ** The memory attributes table

    memory_attributes_table.rs:154-187: its entries, from the descriptors of the memory map with active attributes. *)
Definition mat_allowed : N := N.lor MEMORY_RO (N.lor MEMORY_XP MEMORY_RUNTIME).

Definition mat_entry (d : descr) : option descr :=
  if (d_type d =? 5) || (d_type d =? 6) then
    let a := if N.land (d_attr d) (N.lor MEMORY_RO MEMORY_XP) =? 0
             then if d_type d =? 5 then mat_allowed else N.lor MEMORY_RUNTIME MEMORY_XP
             else N.land (d_attr d) mat_allowed in
    Some (Descr (d_type d) (d_start d) (d_pages d) a)
  else None.

Definition memory_attributes_table (als : list alloc) (g : gcd) : list descr :=
  filter_map mat_entry (descriptors true als g).
