(** The allocators: patina_dxe_core/src/allocator/fixed_size_block_allocator.rs, allocator/uefi_allocator.rs and the
    boot services of allocator.rs, on top of the model of the GCD ([Gcd.Model]).

    Of [SpinLockedGcd] the calls on the memory map are used; the work on the page table and the attributes that go with
    them is the subject of [Gcd.Spin] and leaves allocation state and owner alone.  Locks are not modelled.  The heap of
    the crate linked_list_allocator is given by its contract: where it puts a block is an arbitrary choice among the
    places its documentation allows.  The counters of calls in the statistics are left out. *)
From Verif Require Import Base.Prelude Align.Model Gcd.Blocks Gcd.Model.
Local Open Scope N_scope.

Definition umul {E} (dbg : bool) (a b : N) : res E N :=
  if a * b <? two64 then Ok (a * b) else if dbg then Panic else Ok ((a * b) mod two64).

Definition PAGE : N := 4096.
(** sdk/patina/src/macros.rs:35-39 [uefi_size_to_pages!] and 66-71 [uefi_pages_to_size!]. *)
Definition size_to_pages (dbg : bool) (size : N) : res efi_error N := let* s := uadd dbg size 4095 in Ok (s / PAGE).
Definition pages_to_size (dbg : bool) (pages : N) : res efi_error N := umul dbg pages PAGE.

(** fixed_size_block_allocator.rs:54. *)
Definition MIN_EXPANSION : N := 0x100000.
(** fixed_size_block_allocator.rs:57. *)
Definition BLOCK_SIZES : list N := [8; 16; 32; 64; 128; 256; 512; 1024; 2048; 4096].

(** fixed_size_block_allocator.rs:64-67 [list_index]. *)
Fixpoint position (l : list N) (n : N) (i : nat) : option nat :=
  match l with [] => None | s :: t => if n <=? s then Some i else position t n (S i) end.
Definition list_index (size align : N) : option nat := position BLOCK_SIZES (N.max size align) 0.

(** fixed_size_block_allocator.rs:70-77 [page_shift_from_alignment]. *)
Definition page_shift (alignment : N) : res efi_error N :=
  if negb (is_power_of_two alignment) || (N.log2 alignment <? 12) then Err InvalidParameter else Ok (N.log2 alignment).

(** fixed_size_block_allocator.rs:83-86 [AllocatorListNode]: the heap of one region of memory.  [hp_used] are its
    blocks, address and size.  The node itself lies in the first [NODE] bytes of the region: the size of the struct on
    a 64-bit machine. *)
Definition NODE : N := 64.
Record heap := Heap { hp_base : N; hp_len : N; hp_used : list (N * N) }.
Definition bottom (h : heap) : N := hp_base h + NODE.
Definition top (h : heap) : N := hp_base h + hp_len h.

(** fixed_size_block_allocator.rs:157-181 [FixedSizeBlockAllocator] (statistics: 110-134) with the handle of
    [SpinLockedFixedSizeBlockAllocator]; [al_pages] is the [number_of_pages] of [memory_type_info]. *)
Record alloc := Al {
  al_type : N; al_handle : N; al_gran : N;
  al_lists : list (list N);
  al_heaps : list heap;
  al_range : option (N * N);         (* reserved_range, start and length *)
  al_rsize : N; al_rused : N; al_claimed : N; al_pages : N }.

Definition with_lists (a : alloc) (l : list (list N)) : alloc :=
  Al (al_type a) (al_handle a) (al_gran a) l (al_heaps a) (al_range a) (al_rsize a) (al_rused a) (al_claimed a) (al_pages a).
Definition with_heaps (a : alloc) (l : list heap) : alloc :=
  Al (al_type a) (al_handle a) (al_gran a) (al_lists a) l (al_range a) (al_rsize a) (al_rused a) (al_claimed a) (al_pages a).
Definition with_stats (a : alloc) (rused claimed : N) : alloc :=
  Al (al_type a) (al_handle a) (al_gran a) (al_lists a) (al_heaps a) (al_range a) (al_rsize a) rused claimed (al_pages a).
Definition with_pages (a : alloc) (n : N) : alloc :=
  Al (al_type a) (al_handle a) (al_gran a) (al_lists a) (al_heaps a) (al_range a) (al_rsize a) (al_rused a) (al_claimed a) n.
Definition with_range (a : alloc) (base len claimed : N) : alloc :=
  Al (al_type a) (al_handle a) (al_gran a) (al_lists a) (al_heaps a) (Some (base, len)) len 0 claimed (al_pages a).

(** fixed_size_block_allocator.rs:185-195 [new]. *)
Definition new_alloc (ty handle gran : N) : alloc := Al ty handle gran (repeat [] 10) [] None 0 0 0 0.

(** fixed_size_block_allocator.rs:466-471 [update_memory_type_info]. *)
Definition update_info (dbg : bool) (a : alloc) : res efi_error alloc :=
  let* f := usub dbg (al_rsize a) (al_rused a) in
  let* fp := size_to_pages dbg f in
  let* n := usub dbg (al_claimed a) fp in
  Ok (with_pages a (n mod two32)).

(** fixed_size_block_allocator.rs:358-363 [in_reserved_range]. *)
Definition in_reserved (a : alloc) (x : N) : bool :=
  match al_range a with Some (b, l) => (b <=? x) && (x <? b + l) | None => false end.

(** fixed_size_block_allocator.rs:407-416 [notify_page_allocation]; 248-255 in [expand] is the same. *)
Definition notify_allocation (dbg : bool) (a : alloc) (base len : N) : res efi_error alloc :=
  let* a' := (if in_reserved a base then let* u := uadd dbg (al_rused a) len in Ok (with_stats a u (al_claimed a))
              else let* p := size_to_pages dbg len in let* c := uadd dbg (al_claimed a) p in Ok (with_stats a (al_rused a) c)) in
  update_info dbg a'.

(** fixed_size_block_allocator.rs:419-428 [notify_pages_freed]. *)
Definition notify_freed (dbg : bool) (a : alloc) (base pages : N) : res efi_error alloc :=
  let* a' := (if in_reserved a base then let* s := umul dbg pages PAGE in Ok (with_stats a (al_rused a - s) (al_claimed a))
              else Ok (with_stats a (al_rused a) (al_claimed a - pages))) in
  update_info dbg a'.

(** fixed_size_block_allocator.rs:217-258 [expand]; regions are page aligned. *)
Definition expand (dbg : bool) (a : alloc) (base len : N) : res efi_error alloc :=
  if len <=? NODE then debug_fail dbg (Err InvalidParameter)
  else notify_allocation dbg (with_heaps a (Heap base len [] :: al_heaps a)) base len.

(** ** The pool *)

(** The contract of the heap's [allocate_first_fit]: within the heap, aligned, apart from its other blocks. *)
Definition pad (size align : N) : N := (size + align - 1) / align * align.
(** The crate rounds a request up to at least two words, and to whole words. *)
Definition hsize (size : N) : N := pad (N.max size 16) 8.
Definition apart_from (p size : N) (u : N * N) : bool := (p + size <=? fst u) || (fst u + snd u <=? p).
Definition place_ok (h : heap) (p size align : N) : bool :=
  (bottom h <=? p) && (p + size <=? top h) && (p mod align =? 0) && forallb (apart_from p size) (hp_used h).

(** fixed_size_block_allocator.rs:263-268 of [fallback_alloc]: the first heap with a place; [ch] is each heap's choice. *)
Fixpoint first_heap (ch : nat -> option N) (j : nat) (hs : list heap) (size align : N) : option (N * list heap) :=
  match hs with
  | [] => None
  | h :: t =>
    match (match ch j with Some p => if place_ok h p (hsize size) align then Some p else None | None => None end) with
    | Some p => Some (p, Heap (hp_base h) (hp_len h) ((p, hsize size) :: hp_used h) :: t)
    | None => match first_heap ch (S j) t size align with Some (p, t') => Some (p, h :: t') | None => None end
    end
  end.

Inductive fsb_out := Got (p : N) (a : alloc) | OutOfMemory (need : N).

(** fixed_size_block_allocator.rs:262-281 [fallback_alloc]. *)
Definition fallback_alloc (ch : nat -> option N) (a : alloc) (size align : N) : fsb_out :=
  match first_heap ch 0 (al_heaps a) size align with
  | Some (p, hs) => Got p (with_heaps a hs)
  | None => OutOfMemory (pad (pad size align + NODE + 24) 8)
  end.

Fixpoint set_nth {A} (l : list A) (i : nat) (x : A) : list A :=
  match l, i with [], _ => [] | _ :: t, O => x :: t | y :: t, S k => y :: set_nth t k x end.

(** fixed_size_block_allocator.rs:293-319 [alloc]. *)
Definition fsb_alloc (ch : nat -> option N) (a : alloc) (size align : N) : fsb_out :=
  match list_index size align with
  | Some i =>
    match nth i (al_lists a) [] with
    | p :: t => Got p (with_lists a (set_nth (al_lists a) i t))
    | [] => let b := nth i BLOCK_SIZES 0 in fallback_alloc ch a b b
    end
  | None => fallback_alloc ch a size align
  end.

(** fixed_size_block_allocator.rs:772-784 of [allocate]. *)
Definition expansion_size (dbg : bool) (a : alloc) (need : N) : res efi_error N :=
  let* p := size_to_pages dbg (N.max need MIN_EXPANSION) in
  let* q := size_to_pages dbg (al_gran a) in
  let* r := (match align_up 64 p q with Ok r => Ok r | _ => debug_fail dbg (Err OutOfResources) end) in
  pages_to_size dbg r.

(** fixed_size_block_allocator.rs:760-832 [allocate]; [ch 0] are the heaps' choices of the first, [ch 1] of the second
    try. *)
Definition allocate (dbg : bool) (ch : nat -> nat -> option N) (g : gcd) (a : alloc) (size align : N)
  : res efi_error N * gcd * alloc :=
  match fsb_alloc (ch 0%nat) a size align with
  | Got p a' => (Ok p, g, a')
  | OutOfMemory need =>
    match expansion_size dbg a need with
    | Err e => (Err e, g, a)
    | Panic => (Panic, g, a)
    | Ok len =>
      match page_shift (al_gran a) with
      | Ok shift =>
        match gcd_step g (OpAllocate (TopDown None) SystemMemory shift len (al_handle a) None) with
        | (Ok base, g') =>
          if base =? 0 then (debug_fail dbg (Err OutOfResources), g', a)
          else
            match expand dbg a base len with
            | Ok a' =>
              match fsb_alloc (ch 1%nat) a' size align with
              | Got p a'' => (Ok p, g', a'')
              | OutOfMemory _ => (debug_fail dbg (Err OutOfResources), g', a')
              end
            | Err _ => (debug_fail dbg (Err OutOfResources), g', a)
            | Panic => (Panic, g', a)
            end
        | (Err _, g') => (Err OutOfResources, g', a)
        | (Panic, g') => (Panic, g', a)
        end
      | _ => (debug_fail dbg (Err OutOfResources), g, a)
      end
    end
  end.

(** The heap's [deallocate]; giving back what is not a block is outside its contract ([None]). *)
Fixpoint remove_block (l : list (N * N)) (p size : N) : option (list (N * N)) :=
  match l with
  | [] => None
  | u :: t => if (fst u =? p) && (snd u =? size) then Some t
              else match remove_block t p size with Some t' => Some (u :: t') | None => None end
  end.

(** fixed_size_block_allocator.rs:323-330 [fallback_dealloc]. *)
Fixpoint fallback_dealloc (hs : list heap) (p size : N) : option (list heap) :=
  match hs with
  | [] => Some []
  | h :: t =>
    match fallback_dealloc t p size with
    | None => None
    | Some t' =>
      if (bottom h <=? p) && (p <? top h) then
        match remove_block (hp_used h) p (hsize size) with
        | Some u => Some (Heap (hp_base h) (hp_len h) u :: t')
        | None => None
        end
      else Some (h :: t')
    end
  end.

(** fixed_size_block_allocator.rs:337-355 [dealloc]; [None]: undefined. *)
Definition dealloc (a : alloc) (p size align : N) : option alloc :=
  match list_index size align with
  | Some i => Some (with_lists a (set_nth (al_lists a) i (p :: nth i (al_lists a) [])))
  | None => match fallback_dealloc (al_heaps a) p size with Some hs => Some (with_heaps a hs) | None => None end
  end.

(** ** Pages *)

(** fixed_size_block_allocator.rs:571-622 [allocate_pages]. *)
Definition allocate_pages (dbg : bool) (g : gcd) (a : alloc) (at_ : alloc_type) (pages alignment : N)
  : res efi_error (N * N) * gcd * alloc :=
  let align := N.max (al_gran a) alignment in
  match (let* q := size_to_pages dbg (al_gran a) in
         let* n := align_up 64 pages q in
         let* shift := page_shift align in
         let* _ := (match at_ with AtAddress x => if x mod align =? 0 then Ok tt else Err InvalidParameter | _ => Ok tt end) in
         let* len := pages_to_size dbg n in
         Ok (n, shift, len)) with
  | Err e => (Err e, g, a)
  | Panic => (Panic, g, a)
  | Ok (n, shift, len) =>
    match gcd_step g (OpAllocate at_ SystemMemory shift len (al_handle a) None) with
    | (Panic, g') => (Panic, g', a)
    | (Err e, g') => (Err (match e with InvalidParameter => e | NotFound => e | _ => OutOfResources end), g', a)
    | (Ok base, g') =>
      if base =? 0 then (Err OutOfResources, g', a)
      else
        match notify_allocation dbg a base len with
        | Ok a' => (Ok (base, len), g', a')
        | Err e => (Err e, g', a)
        | Panic => (Panic, g', a)
        end
    end
  end.

(** fixed_size_block_allocator.rs:628-668 [free_pages]. *)
Definition free_pages (dbg : bool) (g : gcd) (a : alloc) (base pages : N) : res efi_error unit * gcd * alloc :=
  match (let* q := size_to_pages dbg (al_gran a) in align_up 64 pages q) with
  | Err e => (Err e, g, a)
  | Panic => (Panic, g, a)
  | Ok n =>
    if negb (base mod al_gran a =? 0) then (Err InvalidParameter, g, a)
    else
      match get_memory_descriptor_for_address g base with
      | Err NotFound => (Err NotFound, g, a)
      | Err _ => (Err InvalidParameter, g, a)
      | Panic => (Panic, g, a)
      | Ok d =>
        if negb (ms_image (b_st d) =? al_handle a) then (Err NotFound, g, a)
        else
          match pages_to_size dbg n with
          | Err e => (Err e, g, a)
          | Panic => (Panic, g, a)
          | Ok len =>
            match gcd_step g (if in_reserved a base then OpFreePreserving base len else OpFree base len) with
            | (Panic, g') => (Panic, g', a)
            | (Err e, g') => (Err (match e with NotFound => NotFound | _ => InvalidParameter end), g', a)
            | (Ok _, g') =>
              match notify_freed dbg a base n with
              | Ok a' => (Ok tt, g', a')
              | Err e => (Err e, g', a)
              | Panic => (Panic, g', a)
              end
            end
          end
      end
  end.

(** fixed_size_block_allocator.rs:683-713 [reserve_memory_pages], 373-392 [set_reserved_range]. *)
Definition reserve_pages (dbg : bool) (g : gcd) (a : alloc) (pages : N) : res efi_error unit * gcd * alloc :=
  match al_range a with
  | Some _ => (Err AlreadyStarted, g, a)
  | None =>
    match (let* q := size_to_pages dbg (al_gran a) in
           let* n := align_up 64 pages q in
           let* len := pages_to_size dbg n in
           let* shift := page_shift (al_gran a) in
           Ok (shift, len)) with
    | Err e => (Err e, g, a)
    | Panic => (Panic, g, a)
    | Ok (shift, len) =>
      match gcd_step g (OpAllocate (TopDown None) SystemMemory shift len (al_handle a) None) with
      | (Panic, g') => (Panic, g', a)
      | (Err e, g') => (Err e, g', a)
      | (Ok base, g') =>
        if base =? 0 then (Panic, g', a) else
        match gcd_step g' (OpFreePreserving base len) with
        | (Panic, g'') => (Panic, g'', a)
        | (Err e, g'') => (Err e, g'', a)
        | (Ok _, g'') =>
          match (let* p := size_to_pages dbg len in
                 let* c := uadd dbg (al_claimed a) p in
                 update_info dbg (with_range a base len c)) with
          | Ok a' => (Ok tt, g'', a')
          | Err e => (Err e, g'', a)
          | Panic => (Panic, g'', a)
          end
        end
      end
    end
  end.

(** ** The pool services *)

(** uefi_allocator.rs:28-35 [AllocationInfo]: signature, memory type, size and alignment of the block. 24 bytes,
    aligned to 8.  [memory p] is what the 24 bytes at [p] hold. *)
Record header := Hdr { hd_sig : N; hd_type : N; hd_size : N; hd_align : N }.
Definition memory := N -> header.
Definition POOL_SIG : N := 0x04151980.
Definition HEADER : N := 24.
Definition put_header (m : memory) (p : N) (h : header) : memory := fun q => if q =? p then h else m q.

(** [isize::MAX], the bound on the size of a [Layout]. *)
Definition ISIZE_MAX : N := two64 / 2 - 1.

(** uefi_allocator.rs:115-141 [allocate_pool]: the layout of the header extended by [size] bytes aligned to 8; a layout
    over [isize::MAX] panics. *)
Definition allocate_pool (dbg : bool) (ch : nat -> nat -> option N) (g : gcd) (a : alloc) (m : memory) (size : N)
  : res efi_error N * gcd * alloc * memory :=
  if ISIZE_MAX <? pad size 8 then (Panic, g, a, m)
  else if ISIZE_MAX <? pad (HEADER + size) 8 then (Panic, g, a, m)
  else
    match allocate dbg ch g a (HEADER + size) 8 with
    | (Ok p, g', a') => (Ok (p + HEADER), g', a', put_header m p (Hdr POOL_SIG (al_type a) (HEADER + size) 8))
    | (Err _, g', a') => (Err OutOfResources, g', a', m)
    | (Panic, g', a') => (Panic, g', a', m)
    end.

(** What is left of the header of a freed block: the signature is cleared (uefi_allocator.rs:170-172), then the list of
    free blocks writes the address of the next one over the first word (fixed_size_block_allocator.rs:341-348).  The
    header is a Rust struct without [repr(C)] (31-35), so the compiler orders its fields: with [front] the first word
    holds signature and type, otherwise it holds the size of the layout. *)
Definition after_free (front : bool) (a : alloc) (h : header) : header :=
  match list_index (hd_size h) (hd_align h) with
  | Some i => let next := match nth i (al_lists a) [] with q :: _ => q | [] => 0 end in
              if front then Hdr (next mod two32) (next / two32) (hd_size h) (hd_align h)
              else Hdr 0 (hd_type h) next (hd_align h)
  | None => Hdr 0 (hd_type h) (hd_size h) (hd_align h)
  end.

(** uefi_allocator.rs:148-179 [free_pool]; what the heap writes into a freed block is left to the environment
    ([SWrite] below). *)
Definition free_pool (dbg front : bool) (a : alloc) (m : memory) (buffer : N) : res efi_error unit * alloc * memory :=
  match usub (E := efi_error) dbg buffer HEADER with
  | Ok p =>
    let h := m p in
    if negb (hd_sig h =? POOL_SIG) then (debug_fail dbg (Err InvalidParameter), a, m)
    else if negb (hd_type h =? al_type a) then (Err NotFound, a, m)
    else
      let m' := put_header m p (after_free front a h) in
      if p =? 0 then (Err InvalidParameter, a, m')
      else
        match dealloc a p (hd_size h) (hd_align h) with
        | Some a' => (Ok tt, a', m')
        | None => (Panic, a, m')
        end
  | _ => (Panic, a, m)
  end.

(** ** The boot services, on all allocators *)

(** allocator.rs:435-447 [core_free_pool]: the first allocator that accepts the buffer. *)
Fixpoint try_free_pool (dbg front : bool) (l : list alloc) (m : memory) (buffer : N) : res efi_error unit * list alloc * memory :=
  match l with
  | [] => (Err InvalidParameter, [], m)
  | a :: t =>
    match free_pool dbg front a m buffer with
    | (Ok _, a', m') => (Ok tt, a' :: t, m')
    | (Panic, a', m') => (Panic, a' :: t, m')
    | (Err _, a', m') => let '(r, t', m'') := try_free_pool dbg front t m' buffer in (r, a' :: t', m'')
    end
  end.
Definition core_free_pool (dbg front : bool) (l : list alloc) (m : memory) (buffer : N) : res efi_error unit * list alloc * memory :=
  if buffer =? 0 then (Err InvalidParameter, l, m) else try_free_pool dbg front l m buffer.

(** allocator.rs:534-580 [core_free_pages]; the memory attributes table is not modelled here. *)
Fixpoint try_free_pages (dbg : bool) (g : gcd) (l : list alloc) (base pages : N) : res efi_error unit * gcd * list alloc :=
  match l with
  | [] => (Err NotFound, g, [])
  | a :: t =>
    match free_pages dbg g a base pages with
    | (Ok _, g', a') => (Ok tt, g', a' :: t)
    | (Panic, g', a') => (Panic, g', a' :: t)
    | (Err _, g', a') => let '(r, g'', t') := try_free_pages dbg g' t base pages in (r, g'', a' :: t')
    end
  end.
Definition core_free_pages (dbg : bool) (g : gcd) (l : list alloc) (base pages : N) : res efi_error unit * gcd * list alloc :=
  if two64 <=? pages * PAGE then (Err InvalidParameter, g, l)
  else if two64 <=? base + pages * PAGE then (Err InvalidParameter, g, l)
  else if negb (base mod PAGE =? 0) then (Err InvalidParameter, g, l)
  else try_free_pages dbg g l base pages.

(** allocator.rs:411-426 [core_allocate_pool], 461-520 [core_allocate_pages]: the call on the allocator of the memory
    type.  The code first looks the allocator up and creates it if need be, 287-328: [SCreate] below; without it the
    call is not made.  Types that have no allocator are rejected, 413 and 355. *)
Definition rejected (ty : N) : bool := (ty =? 7) || ((14 <=? ty) && (ty <=? 0x6FFFFFFF)).
Fixpoint with_alloc {X} (l : list alloc) (ty : N) (f : alloc -> X * alloc) : option (X * list alloc) :=
  match l with
  | [] => None
  | a :: t => if al_type a =? ty then let '(x, a') := f a in Some (x, a' :: t)
              else match with_alloc t ty f with Some (x, t') => Some (x, a :: t') | None => None end
  end.

(** The memory of the firmware: the map, the bytes before the pool buffers, the allocators. *)
Record sys := Sys { s_g : gcd; s_m : memory; s_als : list alloc }.

Inductive sop :=
| SAlloc (ty size align : N) (ch : nat -> nat -> option N)        (* the core's own allocations (GlobalAlloc) *)
| SDealloc (ty p size align : N)
| SPool (ty size : N) (ch : nat -> nat -> option N)               (* AllocatePool *)
| SFreePool (buffer : N) (front : bool)                          (* [front]: see [after_free] *)
| SPages (ty : N) (at_ : alloc_type) (pages alignment : N)        (* AllocatePages *)
| SFreePages (base pages : N)
| SReserve (ty pages : N)                                         (* a memory bucket, allocator.rs:1016-1060 *)
| SCreate (ty handle gran : N)                                    (* a new allocator, allocator.rs:300-328 *)
| SGcd (o : gcd_op)                                               (* another user of the GCD *)
| SWrite (m : memory).                                            (* somebody writes to memory *)

Inductive sout := Value (x y : N) | Done | Failed (e : efi_error) | Crashed.

Definition value (r : res efi_error N) : sout := match r with Ok p => Value p 0 | Err e => Failed e | Panic => Crashed end.
Definition done (r : res efi_error unit) : sout := match r with Ok _ => Done | Err e => Failed e | Panic => Crashed end.

Definition sys_step (dbg : bool) (s : sys) (o : sop) : sout * sys :=
  let g := s_g s in let m := s_m s in let l := s_als s in
  match o with
  | SAlloc ty size align ch =>
    match with_alloc l ty (fun a => let '(r, g', a') := allocate dbg ch g a size align in ((r, g'), a')) with
    | Some ((r, g'), l') => (value r, Sys g' m l')
    | None => (Failed NotFound, s)
    end
  | SDealloc ty p size align =>
    match with_alloc l ty (fun a => match dealloc a p size align with Some a' => (true, a') | None => (false, a) end) with
    | Some (true, l') => (Done, Sys g m l')
    | Some (false, l') => (Crashed, s)
    | None => (Failed NotFound, s)
    end
  | SPool ty size ch =>
    if rejected ty then (Failed InvalidParameter, s) else
    match with_alloc l ty (fun a => let '(r, g', a', m') := allocate_pool dbg ch g a m size in ((r, g', m'), a')) with
    | Some ((r, g', m'), l') => (value r, Sys g' m' l')
    | None => (Failed NotFound, s)
    end
  | SFreePool buffer front => let '(r, l', m') := core_free_pool dbg front l m buffer in (done r, Sys g m' l')
  | SPages ty at_ pages alignment =>
    if rejected ty then (Failed InvalidParameter, s) else
    match with_alloc l ty (fun a => let '(r, g', a') := allocate_pages dbg g a at_ pages alignment in ((r, g'), a')) with
    | Some ((Ok (base, len), g'), l') => (Value base len, Sys g' m l')
    | Some ((Err e, g'), l') => (Failed e, Sys g' m l')
    | Some ((Panic, g'), l') => (Crashed, Sys g' m l')
    | None => (Failed NotFound, s)
    end
  | SFreePages base pages => let '(r, g', l') := core_free_pages dbg g l base pages in (done r, Sys g' m l')
  | SReserve ty pages =>
    match with_alloc l ty (fun a => let '(r, g', a') := reserve_pages dbg g a pages in ((r, g'), a')) with
    | Some ((r, g'), l') => (done r, Sys g' m l')
    | None => (Failed NotFound, s)
    end
  | SCreate ty handle gran =>
    if existsb (fun a => al_type a =? ty) l then (Done, s) else (Done, Sys g m (l ++ [new_alloc ty handle gran]))
  | SGcd o =>
    match gcd_step g o with
    | (Ok v, g') => (Value v 0, Sys g' m l)
    | (Err e, g') => (Failed e, Sys g' m l)
    | (Panic, g') => (Crashed, Sys g' m l)
    end
  | SWrite m' => (Done, Sys g m' l)
  end.
