(** How an image to load is read: patina_dxe_core/src/filesystems.rs and image.rs:762-930.  Drivers are functions from what they are given to what
    they answer.  The nodes of a path are those of [DevicePathWalker] (DevPath/Model.v): type, subtype and data. *)
From Verif Require Import Base.Prelude Base.Bytes.
Local Open Scope N_scope.

Definition BUFFER_TOO_SMALL : N := 2 ^ 63 + 5.
Definition INVALID_PARAMETER : N := 2 ^ 63 + 2.
Definition UNSUPPORTED : N := 2 ^ 63 + 3.
Definition DEVICE_ERROR : N := 2 ^ 63 + 7.
Definition NOT_FOUND : N := 2 ^ 63 + 14.

(** A buffer of zeros of [n] bytes into which a driver wrote from its start. *)
Definition filled (n : N) (bytes : list N) : list N := firstn (N.to_nat n) (bytes ++ repeat 0 (N.to_nat n)).

(** ** Files *)

(** A file: GetInfo without (false) and with a buffer of a size, SetPosition, Read: status, size and what is written. *)
Record file := File { f_info : bool -> N -> N * N * list N; f_setpos : N -> N; f_read : N -> N * N * list N }.
(** filesystems.rs:59-82. *)
Definition get_info (o : file) : res N (list N) :=
  let '(s, n, _) := f_info o false 0 in
  if s =? BUFFER_TOO_SMALL then
    let '(s, _, bytes) := f_info o true n in
    if s =? 0 then Ok (filled n bytes) else Err s
  else if s =? 0 then Err DEVICE_ERROR
  else Err s.
(** [chunks_exact(8).nth(i)]. *)
Definition chunk8 (i : nat) (l : list N) : option (list N) := if Nat.leb (8 * S i) (length l) then Some (firstn 8 (skipn (8 * i) l)) else None.
(** filesystems.rs:85-94. *)
Definition get_size (o : file) : res N N := let* i := get_info o in match chunk8 1 i with Some c => Ok (le_val c) | None => Err NOT_FOUND end.
(** filesystems.rs:97-106. *)
Definition get_attribute (o : file) : res N N := let* i := get_info o in match chunk8 9 i with Some c => Ok (le_val c) | None => Err NOT_FOUND end.
(** filesystems.rs:109-130; DIRECTORY is 0x10. *)
Definition file_read (o : file) : res N (list N) :=
  let* attr := get_attribute o in
  if negb (N.land attr 0x10 =? 0) then Err NOT_FOUND
  else
    let* size := get_size o in
    if negb (f_setpos o 0 =? 0) then Err (f_setpos o 0)
    else
      let '(s, n, bytes) := f_read o size in
      if negb (s =? 0) then Err s
      else if size <? n then Panic
      else Ok (firstn (N.to_nat n) (filled size bytes)).

(** image.rs:864-874: the name in a node. *)
Fixpoint u16s (l : list N) : list N := match l with a :: b :: l => (a + 256 * b) :: u16s l | _ => [] end.
(** image.rs:856-878: open one name after the other.  The second result: the files opened here and not closed. *)
Fixpoint open_path {F} (open : F -> list N -> res N F) (nodes : list (N * N * list N)) (f : F) (opened : list F) : res N F * list F :=
  match nodes with
  | [] => (Ok f, opened)
  | (t, sub, data) :: nodes =>
      if (t =? 4) && (sub =? 4) then
        match open f (u16s data) with
        | Ok g => open_path open nodes g (g :: opened)
        | Err e => (Err e, opened)
        | Panic => (Panic, opened)
        end
      else if t =? 0x7F then (Ok f, opened)
      else (Err UNSUPPORTED, opened)
  end.
(** image.rs:848-882, the device found; [root] is the answer of OpenVolume. *)
Definition from_sfs {F} (ops : F -> file) (open : F -> list N -> res N F) (root : res N F) (nodes : list (N * N * list N)) : res N (list N) * list F :=
  match root with
  | Ok r =>
      match open_path open nodes r [r] with
      | (Ok f, opened) => (file_read (ops f), opened)
      | (Err e, opened) => (Err e, opened)
      | (Panic, opened) => (Panic, opened)
      end
  | Err e => (Err e, [])
  | Panic => (Panic, [])
  end.

(** ** Firmware volumes and LoadFile *)

(** image.rs:808-846, the volume found: ReadSection answers with a status, an authentication status, and a block it took from the pool. *)
Definition from_fw (live : list N) (r : N * N * N * list N) : res N (list N) * list N :=
  let '(s, auth, p, bytes) := r in
  if s =? 0 then (Ok bytes, p :: live) else (Err s, live).

(** image.rs:884-930, the device found: the two calls of LoadFile. *)
Inductive load_protocol := LoadFile | LoadFile2.
Definition from_load (proto : load_protocol) (boot_policy : bool) (call : bool -> bool -> N -> N * N * list N) : res N (list N) :=
  if match proto with LoadFile2 => boot_policy | LoadFile => false end then Err INVALID_PARAMETER
  else
    let '(s, n, _) := call boot_policy false 0 in
    if s =? BUFFER_TOO_SMALL then
      let '(s, _, bytes) := call boot_policy true n in
      if s =? 0 then Ok (filled n bytes) else Err s
    else if s =? 0 then Err DEVICE_ERROR
    else Err s.

(** image.rs:765-796: the answers of the ways, each tried only if those before it failed; the content, whether it is from a volume, the
    authentication status; and the ways tried. *)
Inductive way := Fw | Sfs | Lf2 | Lf.
Definition get_buffer (null boot_policy : bool) (ask : way -> res N (list N)) : res N (list N * bool * N) * list way :=
  if null then (Err INVALID_PARAMETER, [])
  else
    match ask Fw with
    | Ok b => (Ok (b, true, 0), [Fw])
    | Panic => (Panic, [Fw])
    | Err _ =>
        match ask Sfs with
        | Ok b => (Ok (b, false, 0), [Fw; Sfs])
        | Panic => (Panic, [Fw; Sfs])
        | Err _ =>
            match (if boot_policy then Err 0 else ask Lf2) with
            | Ok b => (Ok (b, false, 0), [Fw; Sfs; Lf2])
            | Panic => (Panic, [Fw; Sfs; Lf2])
            | Err _ =>
                let tried := if boot_policy then [Fw; Sfs; Lf] else [Fw; Sfs; Lf2; Lf] in
                match ask Lf with
                | Ok b => (Ok (b, false, 0), tried)
                | Panic => (Panic, tried)
                | Err _ => (Err NOT_FOUND, tried)
                end
            end
        end
    end.
