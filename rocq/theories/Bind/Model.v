(** The SDK's driver bindings and status codes.  sdk/patina/src/driver_binding.rs, uefi_protocol/status_code.rs. *)
From Verif Require Import Base.Prelude Base.Bytes Bind.Spec.
Local Open Scope N_scope.

(** ** Driver bindings *)

(** driver_binding.rs:206-215: an owner with a box, or the address of one that was leaked; [None] after the owner is dropped.  [destroyed] counts how often the
    driver was dropped. *)
Inductive owner := Uninstalled | Installed.
Record bind_st := St { own : option owner; handle : N; iface : N; db : database; destroyed : nat }.
(** driver_binding.rs:217-236: the box is at [iface]. *)
Definition bind_new (h i : N) (d : database) : bind_st := St (Some Uninstalled) h i d 0.
(** driver_binding.rs:239-261.  The handle the firmware gives back is not kept. *)
Definition install (ans fresh : N) (s : bind_st) : res N unit * bind_st :=
  match own s with
  | Some Uninstalled =>
      let '(st, _, d) := db_install ans fresh (handle s) (iface s) (db s) in
      if failed st then (Err st, St (own s) (handle s) (iface s) d (destroyed s))
      else (Ok tt, St (Some Installed) (handle s) (iface s) d (destroyed s))
  | _ => (Ok tt, s)
  end.
(** driver_binding.rs:264-284. *)
Definition uninstall (ans : N) (s : bind_st) : res N unit * bind_st :=
  match own s with
  | Some Installed =>
      let (st, d) := db_uninstall ans (handle s) (iface s) (db s) in
      if failed st then (Err st, St (own s) (handle s) (iface s) d (destroyed s))
      else (Ok tt, St (Some Uninstalled) (handle s) (iface s) d (destroyed s))
  | _ => (Ok tt, s)
  end.
(** driver_binding.rs:287-292. *)
Definition is_installed (s : bind_st) : bool := match own s with Some Installed => true | _ => false end.
(** The owner goes out of scope: a box is dropped, an address is not. *)
Definition drop (s : bind_st) : bind_st :=
  match own s with
  | Some Uninstalled => St None (handle s) (iface s) (db s) (S (destroyed s))
  | Some Installed => St None (handle s) (iface s) (db s) (destroyed s)
  | None => s
  end.
Inductive call := Install (ans fresh : N) | Uninstall (ans : N).
Definition call_run (s : bind_st) (c : call) : bind_st := match c with Install a f => snd (install a f s) | Uninstall a => snd (uninstall a s) end.
Definition history (s : bind_st) (l : list call) : bind_st := fold_left call_run l s.

(** The driver's answers as statuses: driver_binding.rs:147-164. *)
Definition supported_status (r : res N bool) : res unit N := match r with Ok true => Ok 0 | Ok false => Ok (2 ^ 63 + 3) | Err s => Ok s | Panic => Panic end.
(** driver_binding.rs:166-200. *)
Definition start_status (r : res N unit) : res unit N := match r with Ok _ => Ok 0 | Err s => Ok s | Panic => Panic end.

(** ** Status codes *)

(** status_code.rs:57-63: header_size, size, type (16 bytes) and the data, with nothing in between. *)
Definition code_data (guid data : list N) : list N := le_bytes 2 20 ++ le_bytes 2 (N.of_nat (length data) mod 2 ^ 16) ++ guid ++ data.
(** status_code.rs:66-69, 80-87. *)
Definition report (f : option (list N) -> N) (data : option (list N * list N)) : res N unit :=
  let s := f (match data with Some (g, d) => Some (code_data g d) | None => None end) in if failed s then Err s else Ok tt.
