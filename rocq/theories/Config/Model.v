(** Model of the UEFI configuration-table service.
    Source: /repo/patina_dxe_core/src/config_tables.rs lines 23-125.

    GUIDs and pointers are [N]; the null pointer is 0.  The array that the system table points at is a
    boxed slice in runtime-services memory: [st_heap] maps the address of each live box to its contents.
    Touching a freed or wrongly sized box would be undefined behaviour in Rust and is [Panic] here.
    The address a new box gets is chosen by an arbitrary function of the heap ([alloc]).
    The CRC32 of the table header is represented by what it was computed over ([st_crc]). *)
From Verif Require Import Base.Prelude Base.Omap.
Local Open Scope N_scope.

(** [efi::ConfigurationTable] (vendor_guid, vendor_table). *)
Definition entry := (N * N)%type.

Record systab := mkst {
  st_ptr : N;                      (* system_table.configuration_table *)
  st_cnt : N;                      (* system_table.number_of_table_entries *)
  st_heap : @omap (list entry);    (* live boxes *)
  st_crc : N * N;                  (* (pointer, count) when [checksum] last ran *)
  st_sig : list N                  (* event groups signalled, oldest first *)
}.

(** [Vec::iter_mut().find(|x| x.vendor_guid == vendor_guid)] then [entry.vendor_table = vendor_table]
    (lines 69, 74): only the first match changes. *)
Fixpoint modify_first (g p : N) (l : list entry) : list entry :=
  match l with
  | [] => []
  | (g', p') :: t => if g' =? g then (g', p) :: t else (g', p') :: modify_first g p t
  end.

Definition exists_entry (g : N) (l : list entry) : bool := existsb (fun e => fst e =? g) l.

(** lines 66-106: the new contents, given the old list if there is one. [None] is [Err(NotFound)]. *)
Definition new_table (g p : N) (old : option (list entry)) : option (list entry) :=
  match old with
  | Some cur =>
      if negb (p =? 0) then
        if exists_entry g cur then Some (modify_first g p cur) else Some (cur ++ [(g, p)])
      else
        if exists_entry g cur then Some (filter (fun e => negb (fst e =? g)) cur) else None
  | None => if negb (p =? 0) then Some [(g, p)] else None
  end.

Section Install.
(** The allocator's choice of address for a new box. *)
Variable alloc : @omap (list entry) -> N.

(** config_tables.rs:43-125 [core_install_configuration_table].  The old box is dropped when the match
    arm that owns it ends, before the new one is allocated; on [NotFound] it is put back. *)
Definition core_install (g p : N) (st : systab) : res efi_error systab :=
  let old :=
    if st_ptr st =? 0 then
      if st_cnt st =? 0 then Ok None else Panic
    else
      match om_get (st_heap st) (st_ptr st) with
      | Some l => if N.of_nat (length l) =? st_cnt st then Ok (Some l) else Panic
      | None => Panic
      end in
  let* old := old in
  match new_table g p old with
  | None => Err NotFound
  | Some nt =>
      let heap := match old with Some _ => om_del (st_heap st) (st_ptr st) | None => st_heap st end in
      let '(ptr, cnt, heap) :=
        match nt with
        | [] => (0, 0, heap)
        | _ :: _ => let a := alloc heap in (a, N.of_nat (length nt), om_set heap a nt)
        end in
      Ok (mkst ptr cnt heap (ptr, cnt) (st_sig st ++ [g]))
  end.

(** config_tables.rs:23-41 [install_configuration_table]: [gp] is the GUID behind the argument, [None]
    for a null pointer; [sys] is [None] before the system table exists. *)
Definition install_configuration_table (gp : option N) (p : N) (sys : option systab)
  : res efi_error (option systab) :=
  match gp with
  | None => Err InvalidParameter
  | Some g =>
      match sys with
      | None => Err NotFound
      | Some st => let* st' := core_install g p st in Ok (Some st')
      end
  end.

(** A call leaves the system table as it was unless it succeeds (every [Err] path returns before any
    field is written, or writes back the same pointer). *)
Definition call (gp : option N) (p : N) (sys : option systab) : option systab :=
  match install_configuration_table gp p sys with Ok s => s | _ => sys end.
End Install.

(** systemtables.rs: a fresh system table has no configuration table. *)
Definition st_init : systab := mkst 0 0 [] (0, 0) [].
