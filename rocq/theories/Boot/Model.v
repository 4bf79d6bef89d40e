(** * From hand-off blocks to the memory and I/O maps

    patina_dxe_core/src/gcd.rs:30-268 and the capability table of
    patina_dxe_core/src/gcd/spin_locked_gcd.rs:71-169.  The hand-off blocks
    come decoded (Hob/ has the bytes); logging is left out. *)

From Verif Require Import Base.Prelude Align.Model Gcd.Blocks Gcd.Model Gcd.Spin Io.Model.
Local Open Scope N_scope.

(** ResourceDescriptor and ResourceDescriptorV2, sdk/patina_pi/src/hob.rs:
    the fields this code reads.  [d_mattrs] is [attributes] of a V2
    descriptor. *)
Record desc := Desc { d_v2 : bool; d_type : N; d_attr : N; d_start : N; d_len : N; d_mattrs : N }.

(** Hob, hob.rs: the variants this code tells apart. *)
Inductive bhob :=
| BHandoff (memory_bottom memory_top free_bottom free_top : N)
| BCpu (memory_bits io_bits : N)
| BRes (d : desc)
| BOther.

(** The global GCD: memory with its page table, and I/O. *)
Record world := World { w_mem : spin; w_io : iogcd }.

Inductive bout (A : Type) := BOk (a : A) | BPanic | BHang.
Arguments BOk {A} a.
Arguments BPanic {A}.
Arguments BHang {A}.

Definition w_dbg (w : world) : bool := s_dbg (w_mem w).

(** spin_locked_gcd.rs:77-149 ATTRIBUTE_CONVERSION_TABLE, without its
    all-zero end marker: attribute, capability, memory. *)
Definition conversion_table : list (N * N * bool) :=
  [ (0x400, 0x1, true); (0x20000, 0x10, true); (0x800, 0x2, true); (0x1000, 0x4, true); (0x2000, 0x8, true);
    (0x100000, 0x2000, true); (0x200000, 0x1000, true); (0x400000, 0x4000, true); (0x80000, 0x20000, true);
    (0x1, 0x0100000000000000, false); (0x2, 0x0200000000000000, false); (0x4, 0x0400000000000000, false);
    (0x1000000, 0x8000, true); (0x2000000, 0x10000, true) ].

(** spin_locked_gcd.rs:151-169 get_capabilities. *)
Definition get_capabilities (ty : mem_type) (attributes : N) : N :=
  fold_left (fun capabilities e =>
    match e with
    | (attribute, capability, memory) =>
        if (memory || (negb (mt_eqb ty SystemMemory) && negb (mt_eqb ty MoreReliable)))
           && negb (N.land attributes attribute =? 0)
        then N.lor capabilities capability else capabilities
    end) conversion_table 0.

(** hob.rs:444-455 attributes_valid. *)
Definition attributes_valid (a : N) : bool :=
  ((N.land a 0x80 =? 0) || negb (N.land a 0x80000 =? 0))
  && ((N.land a 0x100 =? 0) || negb (N.land a 0x200000 =? 0))
  && ((N.land a 0x200 =? 0) || negb (N.land a 0x400000 =? 0))
  && ((N.land a 0x40000 =? 0) || negb (N.land a 0x80000 =? 0))
  && ((N.land a 0x800000 =? 0) || negb (N.land a 0x1000000 =? 0)).

(** hob.rs:374-393. *)
Definition MEMORY_ATTRIBUTE_MASK : N := 0x85C387.
Definition TESTED_MEMORY_ATTRIBUTES : N := 7.
Definition INITIALIZED_MEMORY_ATTRIBUTES : N := 3.
Definition PRESENT_MEMORY_ATTRIBUTES : N := 1.

(** gcd.rs:127-151, the system-memory case: later assignments win. *)
Definition system_memory_type (a : N) : mem_type :=
  let t := NonExistent in
  let t := if N.land a MEMORY_ATTRIBUTE_MASK =? TESTED_MEMORY_ATTRIBUTES
           then if N.land a 0x2000000 =? 0x2000000 then MoreReliable else SystemMemory
           else t in
  let t := if (N.land a MEMORY_ATTRIBUTE_MASK =? INITIALIZED_MEMORY_ATTRIBUTES)
              || (N.land a MEMORY_ATTRIBUTE_MASK =? PRESENT_MEMORY_ATTRIBUTES)
           then Reserved else t in
  if N.land a 0x800000 =? 0x800000 then Persistent else t.

(** gcd.rs:166-171 and 179-184: [expect] on the result. *)
Definition add_io (w : world) (ty : io_type) (start len : N) : bout world :=
  match add_io_space (w_io w) ty start len with
  | (Ok _, io) => BOk (World (w_mem w) io)
  | _ => BPanic
  end.

(** gcd.rs:126-189: the memory type, and what the I/O arms did. *)
Definition decode (w : world) (d : desc) : bout (mem_type * world) :=
  if d_type d =? 0 then BOk (system_memory_type (d_attr d), w)
  else if (d_type d =? 1) || (d_type d =? 3) then BOk (MemoryMappedIo, w)
  else if (d_type d =? 4) || (d_type d =? 5) then BOk (Reserved, w)
  else if d_type d =? 2 then
    match add_io w IoIo (d_start d) (d_len d) with
    | BOk w => BOk (NonExistent, w) | BPanic => BPanic | BHang => BHang
    end
  else if d_type d =? 6 then
    match add_io w IoReserved (d_start d) (d_len d) with
    | BOk w => BOk (NonExistent, w) | BPanic => BPanic | BHang => BHang
    end
  else if w_dbg w then BPanic
  else BOk (NonExistent, World (alarmed (w_mem w)) (w_io w)).

(** gcd.rs:255-268 remove_range_overlap. *)
Definition remove_range_overlap (a b : N * N) : option (N * N) * option (N * N) :=
  if (fst a <? snd b) && (fst b <? snd a) then
    (if fst a <? fst b then Some (fst a, fst b) else None,
     if snd b <? snd a then Some (snd b, snd a) else None)
  else (Some a, None).

(** gcd.rs:212-216: [take_while(is_some).flatten()]. *)
Definition split_ranges (a b : N * N) : list (N * N) :=
  match remove_range_overlap a b with
  | (Some r1, Some r2) => [r1; r2]
  | (Some r1, None) => [r1]
  | (None, _) => []
  end.

(** gcd.rs:198-210; the cache bits are all known to MemoryAttributes, so
    [from_bits_truncate] keeps them; CacheAttributesMask of patina_paging is
    taken to be the bits of efi::CACHE_ATTRIBUTE_MASK. *)
Definition requested_attributes (ty : mem_type) (d : desc) : option N :=
  if d_v2 d then
    let a := N.land (d_mattrs d) CACHE_ATTRIBUTE_MASK in
    Some (if mt_eqb ty SystemMemory then N.lor a MEMORY_RP else a)
  else None.

(** gcd.rs:217-250, one turn. *)
Definition map_range (s : spin) (ty : mem_type) (r : N * N) (attr : N) (mattrs : option N) : bout spin :=
  let start := fst r in
  let len := snd r - fst r in
  match spin_add s ty start len (get_capabilities ty attr) with
  | (SOk _, s1) =>
      match mattrs with
      | None => BOk s1
      | Some m =>
          match spin_set_attributes s1 start len m with
          | (SErr NotReady, s2) => BOk s2
          | (SHang, _) => BHang
          | _ => BPanic
          end
      end
  | (SHang, _) => BHang
  | _ => BPanic
  end.

Fixpoint map_ranges (s : spin) (ty : mem_type) (l : list (N * N)) (attr : N) (mattrs : option N) : bout spin :=
  match l with
  | [] => BOk s
  | r :: l' =>
      match map_range s ty r attr mattrs with
      | BOk s' => map_ranges s' ty l' attr mattrs
      | BPanic => BPanic
      | BHang => BHang
      end
  end.

(** gcd.rs:104-251, one resource descriptor; [free] is the range of line
    213. *)
Definition add_descriptor (w : world) (free : N * N) (d : desc) : bout world :=
  if d_start d + d_len d <? two64 then                                   (* 120-124 checked_add *)
    match decode w d with
    | BOk (ty, w1) =>
        if mt_eqb ty NonExistent then BOk w1
        else if attributes_valid (d_attr d) then                         (* 191-193 *)
          match map_ranges (w_mem w1) ty (split_ranges (d_start d, d_start d + d_len d) free) (d_attr d)
                           (requested_attributes ty d) with
          | BOk s => BOk (World s (w_io w1))
          | BPanic => BPanic
          | BHang => BHang
          end
        else BPanic
    | BPanic => BPanic
    | BHang => BHang
    end
  else BPanic.

Fixpoint add_descriptors (w : world) (free : N * N) (l : list bhob) : bout world :=
  match l with
  | [] => BOk w
  | BRes d :: l' =>
      match add_descriptor w free d with
      | BOk w' => add_descriptors w' free l'
      | r => r
      end
  | _ :: l' => add_descriptors w free l'
  end.

(** gcd.rs:44-46 and 99-101: start and size of free memory. *)
Definition free_memory (dbg : bool) (bottom top : N) : res efi_error (N * N) :=
  match align_up 64 bottom 0x1000, align_down 64 top 0x1000 with
  | Ok start, Ok t => match usub (E := efi_error) dbg t start with Ok size => Ok (start, size) | _ => Panic end
  | _, _ => Panic
  end.

(** gcd.rs:91-97: the first Handoff block. *)
Fixpoint find_handoff (l : list bhob) : option (N * N) :=
  match l with
  | [] => None
  | BHandoff _ _ b t :: _ => Some (b, t)
  | _ :: l' => find_handoff l'
  end.

(** gcd.rs:90-253 add_hob_resource_descriptors_to_gcd. *)
Definition add_hob_resource_descriptors (w : world) (l : list bhob) : bout world :=
  match find_handoff l with
  | None => BPanic
  | Some (b, t) =>
      match free_memory (w_dbg w) b t with
      | Ok (start, size) =>
          match uadd (E := efi_error) (w_dbg w) start size with           (* 213 *)
          | Ok e => add_descriptors w (start, e) l
          | _ => BPanic
          end
      | _ => BPanic
      end
  end.

(** spin_locked_gcd.rs:336-338, 1243-1245 and 2021-2024 GCD.init: only the
    address limits are set. *)
Definition shl1 (dbg : bool) (bits : N) : option N :=
  if bits <? 64 then Some (2 ^ bits) else if dbg then None else Some (2 ^ (bits mod 64)).

Definition gcd_init (w : world) (mbits ibits : N) : bout world :=
  match shl1 (w_dbg w) mbits, shl1 (w_dbg w) ibits with
  | Some m, Some i =>
      let g := sp_gcd (w_mem w) in
      BOk (World (with_gcd (w_mem w) (mkGcd (g_dbg g) (g_nodesz g) m (g_cap g) (g_blocks g) (g_locked g) (g_prio32 g)))
                 (mkIo (i_dbg (w_io w)) i (i_cap (w_io w)) (i_blocks (w_io w))))
  | _, _ => BPanic
  end.

(** gcd.rs:41-55: later blocks overwrite what earlier ones set.  [v] is
    free_memory_start, free_memory_size, memory_start, memory_end. *)
Fixpoint scan_hobs (w : world) (v : N * N * N * N) (l : list bhob) : bout (world * (N * N * N * N)) :=
  match l with
  | [] => BOk (w, v)
  | BHandoff mb mt fb ft :: l' =>
      match free_memory (w_dbg w) fb ft with
      | Ok (start, size) => scan_hobs w (start, size, mb, mt) l'
      | _ => BPanic
      end
  | BCpu m i :: l' =>
      match gcd_init w m i with
      | BOk w' => scan_hobs w' v l'
      | _ => BPanic
      end
  | _ :: l' => scan_hobs w v l'
  end.

(** gcd.rs:73-80: UC | WC | WT | WB | WP | RP | XP | RO. *)
Definition INITIAL_CAPABILITIES : N := 0x2700F.

(** gcd.rs:30-84 init_gcd; the pointer is not null. *)
Definition init_gcd (w : world) (l : list bhob) : bout world :=
  match scan_hobs w (0, 0, 0, 0) l with
  | BOk (w1, (start, size, mb, mt)) =>
      if (0 <? size) && (mb <? mt) then
        match spin_add (w_mem w1) SystemMemory start size INITIAL_CAPABILITIES with
        | (SOk _, s) => BOk (World s (w_io w1))
        | _ => BPanic
        end
      else BPanic
  | BPanic => BPanic
  | BHang => BHang
  end.
