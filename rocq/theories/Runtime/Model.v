(** Model of the runtime image and event lists published to the Runtime Architectural Protocol.
    Source: /repo/patina_dxe_core/src/runtime.rs lines 20-161.

    The doubly linked lists live in raw memory: [r_links] maps the address of every [list_entry::Entry] to its
    forward and back link.  Each entry of the two Rust [LinkedList]s sits at a fixed address chosen by the
    allocator when it is pushed; that address is an argument of the operations here. *)
From Verif Require Import Base.Prelude.
Local Open Scope N_scope.

(** runtime::ImageEntry (base, size, relocation data, handle) with the address of its [link] field. *)
Record image := mkimage { i_node : N; i_base : N; i_size : N; i_reloc : list N; i_handle : N }.
(** runtime::EventEntry. *)
Record revent := mkrevent { v_node : N; v_type : N; v_tpl : N; v_fn : N; v_ctx : N; v_event : N }.

Definition memory := N -> N * N.
Definition fwd (m : memory) (a : N) : N := fst (m a).
Definition back (m : memory) (a : N) : N := snd (m a).
Definition set_fwd (a v : N) (m : memory) : memory := fun x => if x =? a then (v, snd (m x)) else m x.
Definition set_back (a v : N) (m : memory) : memory := fun x => if x =? a then (fst (m x), v) else m x.
Definition fresh_link (a : N) (m : memory) : memory := fun x => if x =? a then (0, 0) else m x.

(** runtime.rs:20-24 [RuntimeData]; [r_proto] holds the addresses of image_head and event_head once the protocol is
    installed ([runtime_arch_ptr] non-null). *)
Record rdata := mkrd { r_proto : option (N * N); r_images : list image; r_events : list revent; r_links : memory }.

Definition rd_init (m : memory) : rdata := mkrd None [] [] m.

(** runtime.rs:48-53 (and 58-63): the loop; returns the last element visited. *)
Fixpoint relink_loop (prev : N) (nodes : list N) (m : memory) : N * memory :=
  match nodes with
  | [] => (prev, m)
  | n :: t => relink_loop n t (set_back n prev (set_fwd prev n m))
  end.
(** runtime.rs:47-55 / 57-65: the loop and the closing links. *)
Definition relink (head : N) (nodes : list N) (m : memory) : memory :=
  let '(prev, m1) := relink_loop head nodes m in set_back head prev (set_fwd prev head m1).

(** runtime.rs:40-67 [update_protocol_lists]. *)
Definition update_protocol_lists (d : rdata) : rdata :=
  match r_proto d with
  | None => d
  | Some (ih, eh) =>
      mkrd (r_proto d) (r_images d) (r_events d)
        (relink eh (map v_node (r_events d)) (relink ih (map i_node (r_images d)) (r_links d)))
  end.

(** runtime.rs:89-95 [runtime_protocol_notify]. *)
Definition protocol_notify (ih eh : N) (d : rdata) : rdata :=
  update_protocol_lists (mkrd (Some (ih, eh)) (r_images d) (r_events d) (r_links d)).

(** efi::EVENT_GROUP_VIRTUAL_ADDRESS_CHANGE (any fixed GUID value serves) and
    efi::EVT_SIGNAL_VIRTUAL_ADDRESS_CHANGE. *)
Definition VIRTUAL_ADDRESS_CHANGE : N := 1.
Definition EVT_SIGNAL_VIRTUAL_ADDRESS_CHANGE : N := 1610613250.

(** runtime.rs:97-126 [add_runtime_event]. *)
Definition add_runtime_event (node event ty tpl : N) (f : option N) (group : option N) (ctx : option N)
  (d : rdata) : res efi_error rdata :=
  let ty := match group with
            | Some g => if g =? VIRTUAL_ADDRESS_CHANGE then EVT_SIGNAL_VIRTUAL_ADDRESS_CHANGE else ty
            | None => ty end in
  match f with
  | None => Err InvalidParameter
  | Some fn =>
      let e := mkrevent node ty tpl fn (match ctx with Some c => c | None => 0 end) event in
      Ok (update_protocol_lists
            (mkrd (r_proto d) (r_images d) (r_events d ++ [e]) (fresh_link node (r_links d))))
  end.

(** runtime.rs:128-133 [remove_runtime_event]. *)
Definition remove_runtime_event (event : N) (d : rdata) : rdata :=
  update_protocol_lists
    (mkrd (r_proto d) (r_images d) (filter (fun e => negb (v_event e =? event)) (r_events d)) (r_links d)).

(** runtime.rs:135-154 [add_runtime_image]; [reloc] is the flattened relocation data. *)
Definition add_runtime_image (node base size : N) (reloc : list N) (handle : N) (d : rdata) : rdata :=
  update_protocol_lists
    (mkrd (r_proto d) (r_images d ++ [mkimage node base size reloc handle]) (r_events d)
       (fresh_link node (r_links d))).

(** runtime.rs:156-161 [remove_runtime_image]. *)
Definition remove_runtime_image (handle : N) (d : rdata) : rdata :=
  update_protocol_lists
    (mkrd (r_proto d) (filter (fun i => negb (i_handle i =? handle)) (r_images d)) (r_events d) (r_links d)).

(** The operations as data, for histories. *)
Inductive op :=
| ProtocolInstalled (ih eh : N)
| AddImage (node base size : N) (reloc : list N) (handle : N)
| RemoveImage (handle : N)
| AddEvent (node event ty tpl : N) (f group ctx : option N)
| RemoveEvent (event : N).

Definition step (o : op) (d : rdata) : rdata :=
  match o with
  | ProtocolInstalled ih eh => protocol_notify ih eh d
  | AddImage n b s r h => add_runtime_image n b s r h d
  | RemoveImage h => remove_runtime_image h d
  | AddEvent n e ty tpl f g c => match add_runtime_event n e ty tpl f g c d with Ok d' => d' | _ => d end
  | RemoveEvent e => remove_runtime_event e d
  end.
