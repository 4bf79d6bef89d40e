(** * Hand-off blocks: sdk/patina_pi/src/hob.rs

    Memory is one readable region, a base address and its bytes.  Forming a
    reference to or reading anything outside it is undefined behaviour, an
    explicit [HFault]; a panic is [HPanic]; a loop that never ends is
    [HHang].  Loops are given one more step than the region has bytes: each
    step looks at one address of the region and the loop keeps no other
    state, so a loop that outlives that visits an address twice and never
    ends.  64-bit pointers. *)

From Verif Require Import Base.Prelude Base.Bytes.
Open Scope N_scope.

Inductive hout (A : Type) : Type :=
| HRet (a : A)
| HPanic
| HFault
| HHang.
Arguments HRet {A} a.
Arguments HPanic {A}.
Arguments HFault {A}.
Arguments HHang {A}.

Record region := Region { r_base : N; r_bytes : list N }.

(** [n] bytes at address [a], if all of them are readable. *)
Definition rd (m : region) (a n : N) : option (list N) :=
  if (r_base m <=? a) && (a + n <=? r_base m + N.of_nat (length (r_bytes m)))
  then Some (firstn (N.to_nat n) (skipn (N.to_nat (a - r_base m)) (r_bytes m)))
  else None.

(** header::Hob, hob.rs:127-142: r#type u16, length u16, reserved u32. *)
Record hheader := Header { hh_type : N; hh_length : N; hh_reserved : N }.

Definition header_of (bs : list N) : hheader :=
  Header (le_at bs 0 2) (le_at bs 2 2) (le_at bs 4 4).

Definition read_header (m : region) (a : N) : option hheader :=
  option_map header_of (rd m a 8).

(** The HOB types, hob.rs:105-118. *)
Definition HANDOFF : N := 1.
Definition MEMORY_ALLOCATION : N := 2.
Definition RESOURCE_DESCRIPTOR : N := 3.
Definition GUID_EXTENSION : N := 4.
Definition FV : N := 5.
Definition CPU : N := 6.
Definition FV2 : N := 9.
Definition UEFI_CAPSULE : N := 11.
Definition FV3 : N := 12.
Definition RESOURCE_DESCRIPTOR2 : N := 13.
Definition END_OF_HOB_LIST : N := 65535.

(** The reference-carrying variants of [enum Hob], hob.rs:649-662, other
    than GuidHob. *)
Inductive kind :=
| KHandoff | KMemAlloc | KMemAllocModule | KCapsule | KResDesc
| KFv | KFv2 | KFv3 | KCpu | KResDescV2.

(** [size_of] of the struct each refers to (repr(C), hob.rs:191-634). *)
Definition size_of (k : kind) : N :=
  match k with
  | KHandoff => 56 | KMemAlloc => 48 | KMemAllocModule => 72 | KCapsule => 24
  | KResDesc => 48 | KFv => 24 | KFv2 => 56 | KFv3 => 64 | KCpu => 16
  | KResDescV2 => 56
  end.
Definition SIZE_GUID_HOB : N := 24.

(** [enum Hob], hob.rs:649-662: references are addresses, the GUID data slice
    an address and a length. *)
Inductive hob :=
| HRef (k : kind) (p : N)
| HGuid (p dptr dlen : N)
| HMisc (t : N).

(** [hob_header.cast::<T>().as_ref().expect(..)]: a reference to a [T]. *)
Definition as_ref (m : region) (k : kind) (a : N) : hout hob :=
  if a =? 0 then HPanic
  else match rd m a (size_of k) with Some _ => HRet (HRef k a) | None => HFault end.

(** assert_hob_size, hob.rs:925-933, then the cast. *)
Definition sized_ref (m : region) (k : kind) (h : hheader) (a : N) : hout hob :=
  if hh_length h =? size_of k then as_ref m k a else HPanic.

(** The GUID_EXTENSION arm, hob.rs:963-971 and 1290-1295: the subtraction
    panics in a debug build and wraps in a release build; the slice must be
    readable. *)
Definition guid_ref (dbg : bool) (m : region) (h : hheader) (a : N) : hout hob :=
  if a =? 0 then HPanic
  else match rd m a SIZE_GUID_HOB with
       | None => HFault
       | Some _ =>
           match usub dbg (hh_length h) SIZE_GUID_HOB : res efi_error N with
           | Ok n => match rd m (a + SIZE_GUID_HOB) n with
                     | Some _ => HRet (HGuid a (a + SIZE_GUID_HOB) n)
                     | None => HFault
                     end
           | _ => HPanic
           end
       end.

(** The [match current_header.r#type] of discover_hobs, hob.rs:939-1009;
    [None] is the END_OF_HOB_LIST [break]. *)
Definition discover_one (dbg : bool) (m : region) (h : hheader) (a : N) : option (hout hob) :=
  let t := hh_type h in
  if t =? HANDOFF then Some (sized_ref m KHandoff h a)
  else if t =? MEMORY_ALLOCATION then
    Some (if hh_length h =? size_of KMemAllocModule then as_ref m KMemAllocModule a
          else sized_ref m KMemAlloc h a)
  else if t =? RESOURCE_DESCRIPTOR then Some (sized_ref m KResDesc h a)
  else if t =? GUID_EXTENSION then Some (guid_ref dbg m h a)
  else if t =? FV then Some (sized_ref m KFv h a)
  else if t =? FV2 then Some (sized_ref m KFv2 h a)
  else if t =? FV3 then Some (sized_ref m KFv3 h a)
  else if t =? CPU then Some (sized_ref m KCpu h a)
  else if t =? UEFI_CAPSULE then Some (sized_ref m KCapsule h a)
  else if t =? RESOURCE_DESCRIPTOR2 then Some (sized_ref m KResDescV2 h a)
  else if t =? END_OF_HOB_LIST then None
  else Some (HRet (HMisc t)).

(** [hob_header as usize + length as usize], hob.rs:748, 1010, 1308. *)
Definition next_addr (dbg : bool) (a len : N) : hout N :=
  match uadd dbg a len : res efi_error N with Ok v => HRet v | _ => HPanic end.

(** HobList::discover_hobs, hob.rs:923-1013; [acc] is the vector already in
    the list, in order. *)
Fixpoint discover_loop (dbg : bool) (fuel : nat) (m : region) (a : N) (acc : list hob)
  : hout (list hob) :=
  match fuel with
  | O => HHang
  | S fuel' =>
      if a =? 0 then HPanic
      else match read_header m a with
      | None => HFault
      | Some h =>
          match discover_one dbg m h a with
          | None => HRet acc
          | Some HPanic => HPanic
          | Some HFault => HFault
          | Some HHang => HHang
          | Some (HRet v) =>
              match next_addr dbg a (hh_length h) with
              | HRet a' => discover_loop dbg fuel' m a' (acc ++ [v])
              | _ => HPanic
              end
          end
      end
  end.

Definition walk_fuel (m : region) : nat := S (length (r_bytes m)).

Definition discover_hobs (dbg : bool) (m : region) (l : list hob) (a : N) : hout (list hob) :=
  discover_loop dbg (walk_fuel m) m a l.

(** get_c_hob_list_size, hob.rs:738-753.  The running total is a [usize]
    that the addition on line 744 could overflow only after the address on
    line 748 has. *)
Fixpoint size_loop (dbg : bool) (fuel : nat) (m : region) (a acc : N) : hout N :=
  match fuel with
  | O => HHang
  | S fuel' =>
      if a =? 0 then HPanic
      else match read_header m a with
      | None => HFault
      | Some h =>
          let acc := acc + hh_length h in
          if hh_type h =? END_OF_HOB_LIST then HRet acc
          else match next_addr dbg a (hh_length h) with
               | HRet a' => size_loop dbg fuel' m a' acc
               | _ => HPanic
               end
      end
  end.

Definition get_c_hob_list_size (dbg : bool) (m : region) (a : N) : hout N :=
  size_loop dbg (walk_fuel m) m a 0.

(** [HobTrait::size] for Hob, hob.rs:672-687. *)
Definition hob_size (m : region) (v : hob) : option N :=
  match v with
  | HRef k _ => Some (size_of k)
  | HGuid p _ _ => option_map hh_length (read_header m p)
  | HMisc _ => Some 2
  end.

(** HobList::size, hob.rs:820-828. *)
Fixpoint hob_list_size (m : region) (l : list hob) : option N :=
  match l with
  | [] => Some 0
  | v :: r =>
      match hob_size m v, hob_list_size m r with
      | Some a, Some b => Some (a + b)
      | _, _ => None
      end
  end.

(** Hob::header, hob.rs:1231-1248. *)
Definition hob_header (m : region) (v : hob) : option hheader :=
  match v with
  | HRef _ p | HGuid p _ _ => read_header m p
  | HMisc t => Some (Header t 8 0)
  end.

(** [HobTrait::as_ptr], hob.rs:690-705.  The Misc arm casts the type number
    itself to a pointer. *)
Definition hob_as_ptr (v : hob) : N :=
  match v with HRef _ p | HGuid p _ _ => p | HMisc t => t end.

(** HobIter::next, hob.rs:1271-1310: the new [hob_ptr] and the item.
    Dereferencing a null [hob_ptr] on line 1273 is undefined.  The
    RESOURCE_DESCRIPTOR2 arm (line 1302) casts to a pointer to a *reference*
    and copies the reference out: the eight bytes of the HOB's header are
    taken as the address of the descriptor. *)
Definition iter_one (dbg : bool) (m : region) (h : hheader) (a : N) : option (hout hob) :=
  let t := hh_type h in
  if t =? HANDOFF then Some (as_ref m KHandoff a)
  else if t =? MEMORY_ALLOCATION then
    Some (if hh_length h =? size_of KMemAllocModule then as_ref m KMemAllocModule a
          else as_ref m KMemAlloc a)
  else if t =? RESOURCE_DESCRIPTOR then Some (as_ref m KResDesc a)
  else if t =? GUID_EXTENSION then Some (guid_ref dbg m h a)
  else if t =? FV then Some (as_ref m KFv a)
  else if t =? FV2 then Some (as_ref m KFv2 a)
  else if t =? FV3 then Some (as_ref m KFv3 a)
  else if t =? CPU then Some (as_ref m KCpu a)
  else if t =? UEFI_CAPSULE then Some (as_ref m KCapsule a)
  else if t =? RESOURCE_DESCRIPTOR2 then
    Some (match rd m a 8 with
          | None => HFault
          | Some bs =>
              match rd m (le_val bs) (size_of KResDescV2) with
              | Some _ => HRet (HRef KResDescV2 (le_val bs))
              | None => HFault
              end
          end)
  else if t =? END_OF_HOB_LIST then None
  else Some (HRet (HMisc t)).

Definition iter_next (dbg : bool) (m : region) (a : N) : hout (option (hob * N)) :=
  if a =? 0 then HFault
  else match read_header m a with
  | None => HFault
  | Some h =>
      match iter_one dbg m h a with
      | None => HRet None
      | Some HPanic => HPanic
      | Some HFault => HFault
      | Some HHang => HHang
      | Some (HRet v) =>
          match next_addr dbg a (hh_length h) with
          | HRet a' => HRet (Some (v, a'))
          | _ => HPanic
          end
      end
  end.

(** [for hob in &first], hob.rs:1258-1266: everything the iterator yields. *)
Fixpoint iter_loop (dbg : bool) (fuel : nat) (m : region) (a : N) : hout (list hob) :=
  match fuel with
  | O => HHang
  | S fuel' =>
      match iter_next dbg m a with
      | HRet None => HRet []
      | HRet (Some (v, a')) =>
          match iter_loop dbg fuel' m a' with
          | HRet r => HRet (v :: r)
          | HPanic => HPanic | HFault => HFault | HHang => HHang
          end
      | HPanic => HPanic
      | HFault => HFault
      | HHang => HHang
      end
  end.

Definition iterate (dbg : bool) (m : region) (first : hob) : hout (list hob) :=
  iter_loop dbg (walk_fuel m) m (hob_as_ptr first).

(** ResourceDescriptor::attributes_valid, hob.rs:444-455, with the constants
    of lines 322-372. *)
Definition attributes_valid (attr : N) : bool :=
  let has b := negb (N.land attr b =? 0) in
  (negb (has 128) || has 524288)             (* READ_PROTECTED, READ_ONLY_PROTECTABLE *)
  && (negb (has 256) || has 2097152)         (* WRITE_PROTECTED, WRITE_PROTECTABLE *)
  && (negb (has 512) || has 4194304)         (* EXECUTION_PROTECTED, _PROTECTABLE *)
  && (negb (has 262144) || has 524288)       (* READ_ONLY_PROTECTED, _PROTECTABLE *)
  && (negb (has 8388608) || has 16777216).   (* PERSISTENT, PERSISTABLE *)

(** ResourceDescriptor, hob.rs:415-441. *)
Record resdesc := ResDesc {
  rs_header : hheader;
  rs_owner : list N;
  rs_type : N;
  rs_attr : N;
  rs_start : N;
  rs_len : N
}.
Definition resdesc_of (bs : list N) : resdesc :=
  ResDesc (header_of bs) (firstn 16 (skipn 8 bs)) (le_at bs 24 4) (le_at bs 28 4)
          (le_at bs 32 8) (le_at bs 40 8).

(** ResourceDescriptorV2, hob.rs:468-477. *)
Record resdesc2 := ResDesc2 { r2_v1 : resdesc; r2_attributes : N }.

(** From<ResourceDescriptor> for ResourceDescriptorV2, hob.rs:479-484. *)
Definition resdesc2_from (v : resdesc) : resdesc2 :=
  ResDesc2 (ResDesc (Header RESOURCE_DESCRIPTOR2 (hh_length (rs_header v)) (hh_reserved (rs_header v)))
                    (rs_owner v) (rs_type v) (rs_attr v) (rs_start v) (rs_len v)) 0.
