(** Model of the I/O-space half of patina_dxe_core/src/gcd/spin_locked_gcd.rs ([IoGCD], lines 1227-1738)
    and of patina_dxe_core/src/gcd/io_block.rs, over the shared block map of Gcd/Blocks.v. *)
From Verif Require Import Base.Prelude Gcd.Blocks Gcd.Model.
Local Open Scope N_scope.

(** sdk/patina_pi/src/dxe_services.rs:212-227 [GcdIoType]. *)
Inductive io_type : Type := IoNonExistent | IoReserved | IoIo | IoMaximum.
Definition it_eqb (a b : io_type) : bool :=
  match a, b with
  | IoNonExistent, IoNonExistent | IoReserved, IoReserved | IoIo, IoIo | IoMaximum, IoMaximum => true
  | _, _ => false
  end.

(** io_block.rs:29-32 [IoBlock] and dxe_services.rs [IoSpaceDescriptor] without base and length.
    [is_alloc] is the Allocated/Unallocated tag. *)
Record iostate := mkIs { is_alloc : bool; is_type : io_type; is_image : N; is_device : N }.
Definition ioblock := block iostate.

(** io_block.rs:140-148 [is_same_state]. *)
Definition io_same (a b : iostate) : bool :=
  Bool.eqb (is_alloc a) (is_alloc b) && it_eqb (is_type a) (is_type b) &&
  (is_device a =? is_device b) && (is_image a =? is_image b).

(** io_block.rs:22-27 [StateTransition]. *)
Inductive io_transition : Type :=
| ITAdd (t : io_type) | ITRemove | ITAllocate (image : N) (device : option N) | ITFree.

(** io_block.rs:150-212 [state_transition] and the four transitions. *)
Definition io_state_transition (t : io_transition) (s : iostate) : option iostate :=
  match t with
  | ITAdd ty =>
      if negb (is_alloc s) && it_eqb (is_type s) IoNonExistent && negb (it_eqb ty IoNonExistent)
      then Some (mkIs false ty (is_image s) (is_device s)) else None
  | ITRemove =>
      if negb (is_alloc s) && negb (it_eqb (is_type s) IoNonExistent)
      then Some (mkIs false IoNonExistent (is_image s) (is_device s)) else None
  | ITAllocate image device =>
      if negb (is_alloc s) && negb (it_eqb (is_type s) IoNonExistent)
      then Some (mkIs true (is_type s) image (match device with Some d => d | None => is_device s end)) else None
  | ITFree =>
      if is_alloc s && negb (it_eqb (is_type s) IoNonExistent)
      then Some (mkIs false (is_type s) 0 0) else None
  end.

(** spin_locked_gcd.rs:46. *)
Definition IO_BLOCK_SLICE_LEN : N := 4096.

(** spin_locked_gcd.rs:1229-1233 [IoGCD]; [i_cap] is the tree's capacity, [i_dbg] the build profile. *)
Record iogcd := mkIo { i_dbg : bool; i_max : N; i_cap : N; i_blocks : list ioblock }.

(** spin_locked_gcd.rs:1243-1245 [init] on a fresh instance. *)
Definition io_new (dbg : bool) (bits : N) : iogcd := mkIo dbg (2 ^ bits) 0 [].

(** spin_locked_gcd.rs:1247-1265 [init_io_blocks] for a non-zero [maximum_address]: one non-existent block.
    The heap allocation of the node array is not modelled. *)
Definition init_io_blocks (g : iogcd) : iogcd :=
  mkIo (i_dbg g) (i_max g) IO_BLOCK_SLICE_LEN [mkBlock 0 (i_max g) (mkIs false IoNonExistent 0 0)].

(** [if self.io_blocks.capacity() == 0 { self.init_io_blocks()?; }], e.g. lines 1311-1313.  The [?] cannot
    fail: every caller has checked [maximum_address != 0]. *)
Definition ensure_init (g : iogcd) : iogcd := if i_cap g =? 0 then init_io_blocks g else g.

(** spin_locked_gcd.rs:1646-1725 [split_state_transition_at_idx]. *)
Definition io_sst (g : iogcd) (k base len : N) (t : io_transition) : res ierr N * iogcd :=
  let (r, l) := sst_at io_same (i_dbg g) (i_cap g) (i_blocks g) k base len (io_state_transition t) in
  (r, mkIo (i_dbg g) (i_max g) (i_cap g) l).

(** The checks of lines 1303-1305, 1337-1339 and 1595-1597. *)
Definition io_check_range (g : iogcd) (base len : N) : res efi_error unit :=
  if i_max g =? 0 then Err NotReady
  else if len =? 0 then Err InvalidParameter
  else
    let* e := uadd (i_dbg g) base len in
    if i_max g <? e then Err Unsupported else Ok tt.

(** spin_locked_gcd.rs:1297-1330 [add_io_space].  The model returns the key of the block holding the range
    in place of the tree index. *)
Definition add_io_space (g0 : iogcd) (ty : io_type) (base len : N) : res efi_error N * iogcd :=
  match io_check_range g0 base len with
  | Err e => (Err e, g0)
  | Panic => (Panic, g0)
  | Ok _ =>
      let g := ensure_init g0 in
      match closest (i_blocks g) base with
      | None => (Err NotFound, g)
      | Some idx =>
          match lookup (i_blocks g) idx with
          | None => (Err NotFound, g)
          | Some b =>
              if negb (it_eqb (is_type (b_st b)) IoNonExistent) then (Err AccessDenied, g)
              else
                match io_sst g idx base len (ITAdd ty) with
                | (Ok k, g') => (Ok k, g')
                | (Err BlockOutsideRange, g') => (Err AccessDenied, g')
                | (Err InvalidStateTransition, g') => (Err InvalidParameter, g')
                | (Err OutOfSpace, g') => (Err OutOfResources, g')
                | (Err AlreadyExists, g') | (Panic, g') => (Panic, g')
                end
          end
      end
  end.

(** spin_locked_gcd.rs:1336-1364 [remove_io_space]. *)
Definition remove_io_space (g0 : iogcd) (base len : N) : res efi_error unit * iogcd :=
  match io_check_range g0 base len with
  | Err e => (Err e, g0)
  | Panic => (Panic, g0)
  | Ok _ =>
      let g := ensure_init g0 in
      match closest (i_blocks g) base with
      | None => (Err NotFound, g)
      | Some idx =>
          match lookup (i_blocks g) idx with
          | None => (Panic, g)
          | Some b =>
              match io_sst g idx base len ITRemove with
              | (Ok _, g') => (Ok tt, g')
              | (Err BlockOutsideRange, g') => (Err NotFound, g')
              | (Err InvalidStateTransition, g') =>
                  (Err (if is_alloc (b_st b) then AccessDenied else NotFound), g')
              | (Err OutOfSpace, g') => (Err OutOfResources, g')
              | (Err AlreadyExists, g') | (Panic, g') => (Panic, g')
              end
          end
      end
  end.

(** spin_locked_gcd.rs:1440-1455: one iteration of the bottom-up loop, up to the split. *)
Definition io_up_candidate (dbg : bool) (b : ioblock) (ty : io_type) (align len max : N) : candidate :=
  if b_len b <? len then Skip
  else
    match ushift_amount (E := efi_error) dbg align with
    | Ok sh =>
        let addr0 := mask_down (b_base b) sh in
        match (if addr0 <? b_base b then uadd (E := efi_error) dbg addr0 (2 ^ sh) else Ok addr0) with
        | Ok addr =>
            match uadd (E := efi_error) dbg addr len with
            | Ok e =>
                if max <? e then Stop NotFound
                else if negb (it_eqb (is_type (b_st b)) ty) then Skip
                else Try addr
            | _ => CPanic
            end
        | _ => CPanic
        end
    | _ => CPanic
    end.

(** spin_locked_gcd.rs:1501-1522: one iteration of the top-down loop, up to the split.  The subtraction
    [max_address - ib.start()] is unchecked. *)
Definition io_down_candidate (dbg : bool) (b : ioblock) (ty : io_type) (align len max : N) : candidate :=
  match (if max <? b_end b - 1
         then let* d := usub (E := efi_error) dbg max (b_base b) in uadd dbg d 1
         else Ok (b_len b)) with
  | Ok usable_len =>
      if usable_len <? len then Skip
      else
        match ushift_amount (E := efi_error) dbg align with
        | Ok sh =>
            let addr := mask_down (b_base b + usable_len - len) sh in
            if addr <? b_base b then Skip
            else if negb (it_eqb (is_type (b_st b)) ty) then Skip
            else Try addr
        | _ => CPanic
        end
  | _ => CPanic
  end.

(** The loops of [allocate_bottom_up] (lines 1438-1472) and [allocate_top_down] (lines 1499-1540) over the
    keys in visiting order: no iteration that continues has changed the tree. *)
Fixpoint io_search (cand : ioblock -> candidate) (g : iogcd) (keys : list N) (len image : N)
  (device : option N) : res efi_error N * iogcd :=
  match keys with
  | [] => (Err NotFound, g)
  | idx :: rest =>
      match lookup (i_blocks g) idx with
      | None => (Panic, g)
      | Some b =>
          match cand b with
          | Skip => io_search cand g rest len image device
          | Stop e => (Err e, g)
          | CPanic => (Panic, g)
          | Try addr =>
              match io_sst g idx addr len (ITAllocate image device) with
              | (Ok _, g') => (Ok addr, g')
              | (Err InvalidStateTransition, g') | (Err BlockOutsideRange, g') =>
                  io_search cand g' rest len image device
              | (Err OutOfSpace, g') => (Err OutOfResources, g')
              | (Err AlreadyExists, g') | (Panic, g') => (Panic, g')
              end
          end
      end
  end.

(** spin_locked_gcd.rs:1413-1473. *)
Definition io_bottom_up (g0 : iogcd) (ty : io_type) (align len image : N) (device : option N) (max : N)
  : res efi_error N * iogcd :=
  let g := ensure_init g0 in
  io_search (fun b => io_up_candidate (i_dbg g) b ty align len max) g (map b_base (i_blocks g)) len image device.

(** spin_locked_gcd.rs:1475-1541. *)
Definition io_top_down (g0 : iogcd) (ty : io_type) (align len image : N) (device : option N) (max : N)
  : res efi_error N * iogcd :=
  let g := ensure_init g0 in
  io_search (fun b => io_down_candidate (i_dbg g) b ty align len max) g
            (rev (filter (fun k => k <=? max) (map b_base (i_blocks g)))) len image device.

(** spin_locked_gcd.rs:1543-1588 [allocate_address]. *)
Definition io_allocate_address (g0 : iogcd) (ty : io_type) (align len image : N) (device : option N)
  (address : N) : res efi_error N * iogcd :=
  let g := ensure_init g0 in
  match closest (i_blocks g) address with
  | None => (Err NotFound, g)
  | Some idx =>
      match lookup (i_blocks g) idx with
      | None => (Err NotFound, g)
      | Some b =>
          match (if it_eqb (is_type (b_st b)) ty then ushift_amount (E := efi_error) (i_dbg g) align else Ok 0) with
          | Ok sh =>
              if negb (it_eqb (is_type (b_st b)) ty && (address =? mask_down address sh)) then (Err NotFound, g)
              else
                match io_sst g idx address len (ITAllocate image device) with
                | (Ok _, g') => (Ok address, g')
                | (Err InvalidStateTransition, g') | (Err BlockOutsideRange, g') => (Err NotFound, g')
                | (Err OutOfSpace, g') => (Err OutOfResources, g')
                | (Err AlreadyExists, g') | (Panic, g') => (Panic, g')
                end
          | _ => (Panic, g)
          end
      end
  end.

(** spin_locked_gcd.rs:1370-1411 [allocate_io_space]; the [len > 0] tests inside the three searches repeat
    the one made here. *)
Definition allocate_io_space (g : iogcd) (at_ : alloc_type) (ty : io_type) (align len image : N)
  (device : option N) : res efi_error N * iogcd :=
  if i_max g =? 0 then (Err NotReady, g)
  else if (len =? 0) || (image =? 0) then (Err InvalidParameter, g)
  else match at_ with
  | BottomUp m => io_bottom_up g ty align len image device (match m with Some a => a | None => u64_max end)
  | TopDown m => io_top_down g ty align len image device (match m with Some a => a | None => u64_max end)
  | AtAddress a =>
      match uadd (E := efi_error) (i_dbg g) a len with
      | Ok e => if i_max g <? e then (Err Unsupported, g)
                else io_allocate_address g ty align len image device a
      | _ => (Panic, g)
      end
  end.

(** spin_locked_gcd.rs:1594-1617 [free_io_space]. *)
Definition free_io_space (g0 : iogcd) (base len : N) : res efi_error unit * iogcd :=
  match io_check_range g0 base len with
  | Err e => (Err e, g0)
  | Panic => (Panic, g0)
  | Ok _ =>
      let g := ensure_init g0 in
      match closest (i_blocks g) base with
      | None => (Err NotFound, g)
      | Some idx =>
          match io_sst g idx base len ITFree with
          | (Ok _, g') => (Ok tt, g')
          | (Err InvalidStateTransition, g') | (Err BlockOutsideRange, g') => (Err NotFound, g')
          | (Err OutOfSpace, g') => (Err OutOfResources, g')
          | (Err AlreadyExists, g') | (Panic, g') => (Panic, g')
          end
      end
  end.

(** spin_locked_gcd.rs:1623-1644 [get_io_descriptors]; [buflen]/[bufcap] are the caller's vector length and
    capacity. *)
Definition get_io_descriptors (g0 : iogcd) (buflen bufcap : N) : res efi_error (list ioblock) * iogcd :=
  if i_max g0 =? 0 then (Err NotReady, g0)
  else if bufcap <? N.of_nat (length (i_blocks g0)) then (Err InvalidParameter, g0)
  else if negb (buflen =? 0) then (Err InvalidParameter, g0)
  else let g := ensure_init g0 in (Ok (i_blocks g), g).

(** The services as one alphabet of calls. *)
Inductive io_op : Type :=
| IoAdd (ty : io_type) (base len : N)
| IoRemove (base len : N)
| IoAllocate (at_ : alloc_type) (ty : io_type) (align len image : N) (device : option N)
| IoFree (base len : N)
| IoDescriptors (buflen bufcap : N).

Definition io_lift {A} (r : res efi_error A * iogcd) : res efi_error N * iogcd :=
  match r with
  | (Ok _, g) => (Ok 0, g)
  | (Err e, g) => (Err e, g)
  | (Panic, g) => (Panic, g)
  end.

Definition io_step (g : iogcd) (o : io_op) : res efi_error N * iogcd :=
  match o with
  | IoAdd ty b l => add_io_space g ty b l
  | IoRemove b l => io_lift (remove_io_space g b l)
  | IoAllocate at_ ty a l i d => allocate_io_space g at_ ty a l i d
  | IoFree b l => io_lift (free_io_space g b l)
  | IoDescriptors n c => io_lift (get_io_descriptors g n c)
  end.

(** A history; [None] once a call panics. *)
Fixpoint io_run (g : iogcd) (ops : list io_op) : option iogcd :=
  match ops with
  | [] => Some g
  | o :: r => match io_step g o with (Panic, _) => None | (_, g') => io_run g' r end
  end.
