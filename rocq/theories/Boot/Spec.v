(** What the resource descriptors of a hand-off list say about each address,
    independently of the code that reads them. *)
From Verif Require Import Base.Prelude Gcd.Blocks Gcd.Model Gcd.Spec Gcd.Spin Io.Model Io.Spec Boot.Model.
Local Open Scope N_scope.

(** Bit [i] of the resource attributes. *)
Definition attr_bit (d : desc) (i : N) : bool := N.testbit (d_attr d) i.

(** Bits of the resource attributes that classify system memory: 0 present,
    1 initialized, 2 tested, 7/8/9 read/write/execution protected,
    14/15/16 the I/O widths, 18 read-only protected, 23 persistent. *)
Definition classifying : list N := [0; 1; 2; 7; 8; 9; 14; 15; 16; 18; 23].
Definition classified_as (d : desc) (set : list N) : Prop :=
  forall i, In i classifying -> (attr_bit d i = true <-> In i set).

(** The memory type a descriptor asks for. *)
Inductive asks_for (d : desc) : mem_type -> Prop :=
| asks_persistent : d_type d = 0 -> attr_bit d 23 = true -> asks_for d Persistent
| asks_reliable : d_type d = 0 -> classified_as d [0; 1; 2] -> attr_bit d 25 = true -> asks_for d MoreReliable
| asks_system : d_type d = 0 -> classified_as d [0; 1; 2] -> attr_bit d 25 = false -> asks_for d SystemMemory
| asks_initialized : d_type d = 0 -> classified_as d [0; 1] -> asks_for d Reserved
| asks_present : d_type d = 0 -> classified_as d [0] -> asks_for d Reserved
| asks_mmio : d_type d = 1 \/ d_type d = 3 -> asks_for d MemoryMappedIo
| asks_reserved : d_type d = 4 \/ d_type d = 5 -> asks_for d Reserved.

Inductive asks_for_io (d : desc) : io_type -> Prop :=
| asks_io : d_type d = 2 -> asks_for_io d IoIo
| asks_io_reserved : d_type d = 6 -> asks_for_io d IoReserved.

(** The address is the descriptor's, outside the memory that was free at
    hand-off.  When the descriptor starts inside that memory nothing of it is
    left, not even what lies behind it. *)
Definition in_desc (d : desc) (a : N) : Prop := d_start d <= a < d_start d + d_len d.
Definition claims (lo hi : N) (d : desc) (a : N) : Prop :=
  in_desc d a /\ ~ (lo <= a < hi) /\ ~ (lo <= d_start d < hi).

(** Which resource attribute bit gives capability bit [i]. *)
Definition capability_source (ty : mem_type) (i : N) : option N :=
  let unless_ram (b : N) := match ty with SystemMemory | MoreReliable => None | _ => Some b end in
  match i with
  | 0 => Some 10 | 1 => Some 11 | 2 => Some 12 | 3 => Some 13 | 4 => Some 17
  | 12 => Some 21 | 13 => Some 20 | 14 => Some 22 | 17 => Some 19 | 15 => Some 24 | 16 => Some 25
  | 56 => unless_ram 0 | 57 => unless_ram 1 | 58 => unless_ram 2
  | _ => None
  end.
Definition capabilities_of (ty : mem_type) (attr caps : N) : Prop :=
  forall i, N.testbit caps i = match capability_source ty i with Some j => N.testbit attr j | None => false end.

(** The attributes the memory gets: a V2 descriptor chooses the caching (bits 0-4 and 12),
    free system memory is read-protected. *)
Definition chosen_attributes (ty : mem_type) (d : desc) : N :=
  if d_v2 d
  then N.lor (N.land (d_mattrs d) 0x101F) (match ty with SystemMemory => MEMORY_RP | _ => 0 end)
  else MEMORY_RP.

(** The address was nowhere in the map and is now what the descriptor says. *)
Definition entered (d : desc) (attrs : N) (s s' : mstate) : Prop :=
  ms_alloc s = false /\ ms_type s = NonExistent /\
  exists ty caps, asks_for d ty /\ capabilities_of ty (d_attr d) caps /\
    s' = mkMs false ty (added_caps ty caps) attrs (ms_image s) (ms_device s).

(** The resource descriptors of the list, in order. *)
Definition descriptors (l : list bhob) : list desc :=
  flat_map (fun h => match h with BRes d => [d] | _ => [] end) l.

(** Exactly one occurrence in [l] satisfies [P], and it is [d]. *)
Definition only (P : desc -> Prop) (l : list desc) (d : desc) : Prop :=
  exists l1 l2, l = l1 ++ d :: l2 /\ P d /\ Forall (fun x => ~ P x) l1 /\ Forall (fun x => ~ P x) l2.

(** [d] describes memory and claims [a]. *)
Definition claims_memory (lo hi : N) (a : N) (d : desc) : Prop := claims lo hi d a /\ exists ty, asks_for d ty.
Definition claims_io (a : N) (d : desc) : Prop := in_desc d a /\ exists ty, asks_for_io d ty.

(** The page-aligned free memory of the hand-off table. *)
Definition page_up (x : N) : N := (x + 4095) / 4096 * 4096.
Definition page_floor (x : N) : N := x / 4096 * 4096.

(** Fields have their C widths. *)
Definition desc_wf (d : desc) : Prop :=
  d_type d < 2 ^ 32 /\ d_attr d < 2 ^ 32 /\ d_start d < two64 /\ d_len d < two64 /\ d_mattrs d < two64.
Definition hob_wf (h : bhob) : Prop :=
  match h with
  | BHandoff a b c e => a < two64 /\ b < two64 /\ c < two64 /\ e < two64
  | BCpu m i => m < 256 /\ i < 256
  | BRes d => desc_wf d
  | BOther => True
  end.

(** A memory map in use, no page table yet, and an I/O map. *)
Definition io_map_ok (g : iogcd) : Prop :=
  0 < i_max g < two64 /\ tiles 0 (i_max g) (io_view g) /\ merged (io_view g) /\
  N.of_nat (length (io_view g)) <= IO_BLOCK_SLICE_LEN /\
  ((i_cap g = IO_BLOCK_SLICE_LEN /\ i_blocks g <> []) \/ (i_cap g = 0 /\ i_blocks g = [])).
Definition world_ok (w : world) : Prop :=
  map_ok (sp_gcd (w_mem w)) /\ 0 < g_max (sp_gcd (w_mem w)) < two64 /\ sp_pt (w_mem w) = None /\ io_map_ok (w_io w).

Definition mem_at (w : world) (a : N) : option mstate := state_at (g_blocks (sp_gcd (w_mem w))) a.
Definition io_at (w : world) (a : N) : option iostate := state_at (io_view (w_io w)) a.

(** ** Lists the code accepts *)
Definition nowhere (w : world) (a : N) : Prop := mem_at w a = Some (mkMs false NonExistent 0 0 0 0).

(** A protection that is on must be declared possible: read (by the
    read-only bit), write, execution, read-only, persistence. *)
Definition protections_declared (d : desc) : Prop :=
  (attr_bit d 7 = true -> attr_bit d 19 = true) /\ (attr_bit d 8 = true -> attr_bit d 21 = true) /\
  (attr_bit d 9 = true -> attr_bit d 22 = true) /\ (attr_bit d 18 = true -> attr_bit d 19 = true) /\
  (attr_bit d 23 = true -> attr_bit d 24 = true).

(** A memory descriptor that makes sense by itself. *)
Definition sensible (max : N) (d : desc) : Prop :=
  0 < d_len d /\ d_start d + d_len d <= max /\ d_type d < 6 /\ d_type d <> 2 /\
  forall ty, asks_for d ty ->
    protections_declared d /\
    (d_v2 d = true -> d_start d mod 4096 = 0 /\ d_len d mod 4096 = 0 /\ chosen_attributes ty d <> 0 /\
       forall caps, capabilities_of ty (d_attr d) caps -> bits_subset (chosen_attributes ty d) (added_caps ty caps)).

(** No address is claimed twice. *)
Definition no_conflict (lo hi : N) (ds : list desc) : Prop :=
  ForallOrdPairs (fun d e => forall a, ~ (claims_memory lo hi a d /\ claims_memory lo hi a e)) ds.

(** ** Which block of the list counts *)
Definition is_handoff (h : bhob) : Prop := match h with BHandoff _ _ _ _ => True | _ => False end.
Definition is_cpu (h : bhob) : Prop := match h with BCpu _ _ => True | _ => False end.
(** [h] is the first, or the last, block of its sort. *)
Definition first_of (P : bhob -> Prop) (l : list bhob) (h : bhob) : Prop :=
  exists l1 l2, l = l1 ++ h :: l2 /\ P h /\ Forall (fun x => ~ P x) l1.
Definition last_of (P : bhob -> Prop) (l : list bhob) (h : bhob) : Prop :=
  exists l1 l2, l = l1 ++ h :: l2 /\ P h /\ Forall (fun x => ~ P x) l2.

(** The global GCD as the core finds it: no map, no limits. *)
Definition blank (w : world) : Prop :=
  g_blocks (sp_gcd (w_mem w)) = [] /\ g_cap (sp_gcd (w_mem w)) = 0 /\ sp_pt (w_mem w) = None /\
  i_blocks (w_io w) = [] /\ i_cap (w_io w) = 0.
