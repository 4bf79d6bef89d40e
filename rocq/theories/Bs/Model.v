(** The SDK's wrappers of boot services, sdk/patina/src/boot_services.rs and boot_services/{boxed,c_ptr,allocation}.rs.
    The firmware is a parameter: each call of it is a function from what it is given to what it answers. *)
From Verif Require Import Base.Prelude.
Local Open Scope N_scope.

(** A status is an error if the top bit is set (r_efi); others, warnings too, are successes. *)
Definition is_error (s : N) : bool := 2 ^ 63 <=? s.
Definition BUFFER_TOO_SMALL : N := 2 ^ 63 + 5.
Definition INVALID_PARAMETER : N := 2 ^ 63 + 2.
Definition NOT_FOUND : N := 2 ^ 63 + 14.

(** ** The pool *)

(** The blocks allocated and not freed, and the frees of anything else. *)
Record world := World { live : list N; wild : list N }.
Fixpoint remove1 (p : N) (l : list N) : list N := match l with [] => [] | x :: l => if x =? p then l else x :: remove1 p l end.

(** boot_services.rs:1107-1117; [a] is the firmware's answer, status and address. *)
Definition allocate_pool (w : world) (a : N * N) : res N N * world :=
  if is_error (fst a) then (Err (fst a), w) else (Ok (snd a), World (snd a :: live w) (wild w)).
(** boot_services.rs:1119-1124, the status dropped. *)
Definition free_pool (w : world) (p : N) : world :=
  if existsb (N.eqb p) (live w) then World (remove1 p (live w)) (wild w) else World (live w) (p :: wild w).

(** boxed.rs:20-23, of a slice: address and number of elements. *)
Record bbox := Bbox { b_ptr : N; b_len : N }.
(** boxed.rs:73-77. *)
Definition drop_box (w : world) (b : bbox) : world := free_pool w (b_ptr b).
(** boxed.rs:27-32: panics if there is no memory. *)
Definition box_new (w : world) (a : N * N) : res N bbox * world :=
  match allocate_pool w a with (Ok p, w) => (Ok (Bbox p 1), w) | (_, w) => (Panic, w) end.
(** boxed.rs:44-51: the box is dropped when the function ends. *)
Definition into_raw (w : world) (b : bbox) : N * world := (b_ptr b, drop_box w b).
(** boxed.rs:54-58. *)
Definition leak (w : world) (b : bbox) : N * world := (b_ptr b, w).

(** ** Lists from the firmware *)

(** What GetMemoryMap answers: status, size, key, size of a descriptor, version. *)
Record gmm := Gmm { m_status : N; m_size : N; m_key : N; m_dsize : N; m_version : N }.
Record mmap := Mmap { mm_box : bbox; mm_key : N; mm_version : N }.
(** boot_services.rs:1068-1105.  [f] is the firmware's answer to the first (false) and second call, given the size; [al] that of the allocation. *)
Definition get_memory_map (w : world) (f : bool -> N -> gmm) (al : N -> N * N) : res (N * N) mmap * world :=
  let r := f false 0 in
  let size := if m_status r =? BUFFER_TOO_SMALL then m_size r + 0x400 else m_size r in
  match allocate_pool w (al size) with
  | (Ok p, w) =>
      let r := f true size in
      if m_status r =? BUFFER_TOO_SMALL then (Err (m_status r, m_size r), w)
      else if is_error (m_status r) then (Err (m_status r, 0), w)
      else (Ok (Mmap (Bbox p (m_dsize r)) (m_key r) (m_version r)), w)
  | (Err s, w) => (Err (s, 0), w)
  | (Panic, w) => (Panic, w)
  end.
(** boot_services.rs:1190-1223.  [f] as above: status and size. *)
Definition locate_handle (w : world) (f : bool -> N -> N * N) (al : N -> N * N) : res N bbox * world :=
  let size := snd (f false 0) in
  match allocate_pool w (al size) with
  | (Ok p, w) =>
      let r := f true size in
      if is_error (fst r) then (Err (fst r), w) else (Ok (Bbox p (snd r / 8)), w)
  | (Err s, w) => (Err s, w)
  | (Panic, w) => (Panic, w)
  end.
(** boot_services.rs:1297-1316, 1358-1374, 1376-1405: the firmware allocates; status, address and count. *)
Definition take_list (w : world) (r : N * N * N) : res N bbox * world :=
  let '(s, p, n) := r in
  if is_error s then (Err s, w) else (Ok (Bbox p n), World (p :: live w) (wild w)).

(** boot_services.rs:1447-1470.  The firmware answers with a status and exit data, which it puts into the pool: address and size.  [var] is the
    address of the variable [exit_data], [junk] what the size variable holds if the firmware does not set it.  The test of line 1459 is of
    [var], which is not null; so is the address handed out. *)
Definition start_image (w : world) (s : N) (data : option (N * N)) (var junk : N) : res (N * option bbox) unit * world :=
  let w := match data with Some (p, _) => World (p :: live w) (wild w) | None => w end in
  if is_error s
  then (Err (s, if negb (var =? 0) then Some (Bbox var (match data with Some (_, n) => n | None => junk end)) else None), w)
  else (Ok tt, w).

(** boot_services.rs:1318-1330: null, or a list that ends with null. *)
Definition driver_list (hs : list N) : option (list N) := match hs with [] => None | _ => Some (hs ++ [0]) end.

(** boot_services.rs:1045-1060, allocation.rs:161-169: the type and the address given to the firmware; the address it leaves. *)
Inductive alloc_type := AnyPage | MaxAddress (a : N) | Address (a : N).
Definition pages_request (t : alloc_type) : N * N := match t with AnyPage => (0, 0) | MaxAddress a => (1, a) | Address a => (2, a) end.
Definition allocate_pages (f : N -> N -> N * N) (t : alloc_type) : res N N :=
  let r := f (fst (pages_request t)) (snd (pages_request t)) in if is_error (fst r) then Err (fst r) else Ok (snd r).

(** boot_services.rs:499-522, 569-598, 708-731: [size] of the type asked for, [r] the firmware's answer (status, interface).  [None] is the
    address of a value of size zero. *)
Definition typed_protocol (dbg : bool) (size : N) (r : N * N) : res N (option N) :=
  if is_error (fst r) then Err (fst r)
  else if negb (snd r =? 0) then if size =? 0 then if dbg then Panic else Err INVALID_PARAMETER else Ok (Some (snd r))
  else if 0 <? size then if dbg then Panic else Err INVALID_PARAMETER
  else Ok None.

(** ** Interfaces *)

(** Values that own an interface: those the caller holds, those the firmware was given, those destroyed, and those nobody holds any more.
    Each is named by its address. *)
Record ledger := Ledger { held : list N; installed : list N; destroyed : list N; lost : list N }.
(** boot_services.rs:347-373.  [zst]: the type has size zero, and the value is not taken apart but destroyed when the function ends. *)
Definition install (l : ledger) (zst : bool) (p : N) (ok : bool) : ledger :=
  let h := remove1 p (held l) in
  match zst, ok with
  | false, true => Ledger h (p :: installed l) (destroyed l) (lost l)
  | false, false => Ledger h (installed l) (p :: destroyed l) (lost l)
  | true, true => Ledger h (p :: installed l) (p :: destroyed l) (lost l)
  | true, false => Ledger h (installed l) (p :: p :: destroyed l) (lost l)
  end.
(** boot_services.rs:392-411; the firmware refuses what is not installed. *)
Definition uninstall (l : ledger) (p : N) (ok : bool) : ledger :=
  if ok && existsb (N.eqb p) (installed l) then Ledger (p :: held l) (remove1 p (installed l)) (destroyed l) (lost l) else l.
(** boot_services.rs:429-461: the new value is taken apart before the call, and not put together again if that fails. *)
Definition reinstall (l : ledger) (old new : N) (ok : bool) : ledger :=
  let h := remove1 new (held l) in
  if ok && existsb (N.eqb old) (installed l) then Ledger (old :: h) (new :: remove1 old (installed l)) (destroyed l) (lost l)
  else Ledger h (installed l) (destroyed l) (new :: lost l).
