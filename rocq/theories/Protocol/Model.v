(** Model of the protocol database (patina_dxe_core/src/protocol_db.rs).
    Handles, interfaces, events, registrations are pointers, kept as numbers; GUIDs are the 128-bit numbers of
    their bytes in order, so that [OrdGuid] (protocol_db.rs:119-131, byte-wise comparison) is the order on [N].
    Every operation runs under one TPL lock (protocol_db.rs:597-868; the lock itself is modelled in Tpl), so the
    model is sequential.  Not modelled: overflow of [next_handle], [next_registration] ([usize]) and [open_count]
    ([u32]), which needs 2^64 or 2^32 calls. *)
From Verif Require Import Base.Prelude Base.Omap.
Local Open Scope N_scope.

(** r-efi constants used by protocol_db.rs:72-95, 411-440. *)
Definition OPEN_BY_HANDLE_PROTOCOL : N := 0x1.
Definition OPEN_GET_PROTOCOL : N := 0x2.
Definition OPEN_TEST_PROTOCOL : N := 0x4.
Definition OPEN_BY_CHILD_CONTROLLER : N := 0x8.
Definition OPEN_BY_DRIVER : N := 0x10.
Definition OPEN_EXCLUSIVE : N := 0x20.
Definition BY_DRIVER_EXCLUSIVE : N := N.lor OPEN_BY_DRIVER OPEN_EXCLUSIVE.

Definition has_bit (attr bit : N) : bool := negb (N.land attr bit =? 0).

(** protocol_db.rs:47-53 [OpenProtocolInformation]. *)
Record usage := MkU { u_agent : option N; u_ctrl : option N; u_attr : N; u_count : N }.

Definition oeqb (a b : option N) : bool :=
  match a, b with Some x, Some y => x =? y | None, None => true | _, _ => false end.

(** protocol_db.rs:55-61: equality ignores the open count. *)
Definition usage_eqb (a b : usage) : bool :=
  oeqb (u_agent a) (u_agent b) && oeqb (u_ctrl a) (u_ctrl b) && (u_attr a =? u_attr b).

Definition is_none {A} (o : option A) : bool := match o with None => true | Some _ => false end.

(** protocol_db.rs:66-98 [OpenProtocolInformation::new]. *)
Definition usage_new (handle : N) (agent ctrl : option N) (attr : N) : res efi_error usage :=
  if attr =? OPEN_BY_CHILD_CONTROLLER then
    match agent, ctrl with
    | Some _, Some c => if handle =? c then Err InvalidParameter else Ok (MkU agent ctrl attr 1)
    | _, _ => Err InvalidParameter
    end
  else if (attr =? OPEN_BY_DRIVER) || (attr =? BY_DRIVER_EXCLUSIVE) then
    if is_none agent || is_none ctrl then Err InvalidParameter else Ok (MkU agent ctrl attr 1)
  else if attr =? OPEN_EXCLUSIVE then
    if is_none agent then Err InvalidParameter else Ok (MkU agent ctrl attr 1)
  else if (attr =? OPEN_BY_HANDLE_PROTOCOL) || (attr =? OPEN_GET_PROTOCOL) || (attr =? OPEN_TEST_PROTOCOL) then
    Ok (MkU agent ctrl attr 1)
  else Err InvalidParameter.

(** protocol_db.rs:112-117 [ProtocolInstance]. *)
Record inst := MkI { i_iface : N; i_drv : bool; i_exc : bool; i_usage : list usage }.

(** protocol_db.rs:140-145 [ProtocolNotify]; [fresh_handles] is a BTreeSet. *)
Record notify := MkN { nt_event : N; nt_reg : N; nt_fresh : omap unit }.

(** protocol_db.rs:147-150 [Handle]. *)
Record hnd := MkH { h_order : N; h_prots : omap inst }.

(** protocol_db.rs:192-198 [ProtocolDb].  [p_seed] is the compile-time seed of the handle hash
    (protocol_db.rs:895-899); [p_fuel] bounds the number of collisions the search for a free handle value may
    meet, after which the model reports that the call has not returned. *)
Record pdb := MkP {
  p_seed : N; p_fuel : nat;
  p_handles : omap hnd; p_notif : omap (list notify); p_hash : bool; p_next : N; p_nreg : N }.

(** protocol_db.rs:201-209 [new]. *)
Definition pdb_new (seed : N) (fuel : nat) : pdb := MkP seed fuel [] [] false 1 1.

Definition set_handles (d : pdb) (hs : omap hnd) : pdb :=
  MkP (p_seed d) (p_fuel d) hs (p_notif d) (p_hash d) (p_next d) (p_nreg d).
Definition set_notif (d : pdb) (n : omap (list notify)) : pdb :=
  MkP (p_seed d) (p_fuel d) (p_handles d) n (p_hash d) (p_next d) (p_nreg d).

(** protocol_db.rs:211-213. *)
Definition enable_handle_hashing (d : pdb) : pdb :=
  MkP (p_seed d) (p_fuel d) (p_handles d) (p_notif d) true (p_next d) (p_nreg d).

(** protocol_db.rs:886-892 [next_state] of the xorshift64-star generator, on 64-bit words. *)
Definition next_state (s : N) : N :=
  let s := N.lxor s (N.shiftr s 12) in
  let s := N.lxor s (N.land (N.shiftl s 25) u64_max) in
  let s := N.lxor s (N.shiftr s 27) in
  N.land (s * 0x2545F4914F6CDD1D) u64_max.

(** protocol_db.rs:906-911 [write] over the eight little-endian bytes of a [usize]. *)
Fixpoint hash_bytes (k : nat) (n st : N) : N :=
  match k with
  | O => st
  | S k' => hash_bytes k' (N.shiftr n 8) (next_state (N.lxor st (N.land n 0xFF)))
  end.
Definition hash_write (st n : N) : N := hash_bytes 8 n st.

(** protocol_db.rs:237-252: the value of a new handle and the new [next_handle]. *)
Fixpoint find_key (fuel : nat) (hs : omap hnd) (st nh : N) : option (N * N) :=
  if (st =? 0) || om_mem hs st then
    match fuel with
    | O => None
    | S f => find_key f hs (hash_write st nh) (nh + 1)
    end
  else Some (st, nh).

Definition new_key (d : pdb) : option (N * N) :=
  if p_hash d then find_key (p_fuel d) (p_handles d) (hash_write (p_seed d) (p_next d)) (p_next d + 1)
  else Some (p_next d, p_next d + 1).

(** protocol_db.rs:366-373 [validate_handle]. *)
Definition validate (d : pdb) (h : N) : res efi_error unit :=
  if om_mem (p_handles d) h then Ok tt else Err InvalidParameter.
Definition ovalidate (d : pdb) (h : option N) : res efi_error unit :=
  match h with Some h => validate d h | None => Ok tt end.

(** Looking up an instance: [handles.get(key)] then [protocols.get(guid)]. *)
Definition get_inst (d : pdb) (h g : N) : option inst :=
  match om_get (p_handles d) h with
  | Some hd => om_get (h_prots hd) g
  | None => None
  end.

(** The calls of the database and what they return. *)
Inductive pout :=
| OutHandle (h : N) (evs : list N)   (* install: the handle, the events to signal *)
| OutUnit
| OutIface (i : N)
| OutHandles (l : list N)
| OutUsages (l : list usage)
| OutInfo (l : list (N * list usage))
| OutGuids (l : list N)
| OutReg (r : N)
| OutNext (h : option N)
| OutErr (e : efi_error)
| OutPanic
| OutHang.

(** protocol_db.rs:276-284: every registration for the protocol records the handle; the events are returned. *)
Definition add_fresh (h : N) (n : notify) : notify := MkN (nt_event n) (nt_reg n) (om_set (nt_fresh n) h tt).
Definition notify_install (d : pdb) (g h : N) : pdb * list N :=
  let d' := set_notif d (om_upd (p_notif d) g (map (add_fresh h))) in
  (d', match om_get (p_notif d') g with Some ns => map nt_event ns | None => [] end).

(** protocol_db.rs:260-286: the part of [install_protocol_interface] after the handle is known. *)
Definition install_on (d : pdb) (key g iface : N) : pout * pdb :=
  match om_get (p_handles d) key with
  | None => (OutErr Unsupported, d)
  | Some hd =>
    if om_mem (h_prots hd) g then (OutErr InvalidParameter, d)
    else
      let d1 := set_handles d (om_upd (p_handles d) key
                  (fun hd => MkH (h_order hd) (om_set (h_prots hd) g (MkI iface false false [])))) in
      let '(d2, evs) := notify_install d1 g key in
      (OutHandle key evs, d2)
  end.

(** protocol_db.rs:221-287 [install_protocol_interface]. *)
Definition install (d : pdb) (handle : option N) (g iface : N) : pout * pdb :=
  match handle with
  | Some h =>
    match validate d h with
    | Ok _ => install_on d h g iface
    | Err e => (OutErr e, d)
    | Panic => (OutPanic, d)
    end
  | None =>
    match new_key d with
    | None => (OutHang, d)
    | Some (key, nh) =>
      install_on (MkP (p_seed d) (p_fuel d) (om_set (p_handles d) key (MkH nh [])) (p_notif d) (p_hash d) nh (p_nreg d))
                 key g iface
    end
  end.

(** protocol_db.rs:289-321 [uninstall_protocol_interface]. *)
Definition uninstall (d : pdb) (h g iface : N) : pout * pdb :=
  match om_get (p_handles d) h with
  | None => (OutErr InvalidParameter, d)
  | Some hd =>
    match om_get (h_prots hd) g with
    | None => (OutErr NotFound, d)
    | Some it =>
      if negb (i_iface it =? iface) then (OutErr NotFound, d)
      else match i_usage it with
           | _ :: _ => (OutErr AccessDenied, d)
           | [] =>
             let ps := om_del (h_prots hd) g in
             let hs := om_upd (p_handles d) h (fun hd => MkH (h_order hd) ps) in
             (OutUnit, set_handles d (match ps with [] => om_del hs h | _ => hs end))
           end
    end
  end.

(** Stable sort by the second component (protocol_db.rs:343). *)
Fixpoint ins_by (x : N * N) (l : list (N * N)) : list (N * N) :=
  match l with
  | [] => [x]
  | y :: t => if snd x <=? snd y then x :: l else y :: ins_by x t
  end.
Fixpoint sort_by (l : list (N * N)) : list (N * N) :=
  match l with [] => [] | x :: t => ins_by x (sort_by t) end.

(** protocol_db.rs:323-346 [locate_handles]. *)
Definition locate_handles (d : pdb) (g : option N) : pout :=
  let l := filter (fun kh => match g with None => true | Some g => om_mem (h_prots (snd kh)) g end) (p_handles d) in
  match l with
  | [] => OutErr NotFound
  | _ => OutHandles (map fst (sort_by (map (fun kh => (fst kh, h_order (snd kh))) l)))
  end.

(** protocol_db.rs:348-355 [locate_protocol]: the first handle in key order that has the protocol. *)
Fixpoint find_inst (hs : omap hnd) (g : N) : option inst :=
  match hs with
  | [] => None
  | (_, hd) :: t => match om_get (h_prots hd) g with Some it => Some it | None => find_inst t g end
  end.
Definition locate_protocol (d : pdb) (g : N) : pout :=
  match find_inst (p_handles d) g with Some it => OutIface (i_iface it) | None => OutErr NotFound end.

(** protocol_db.rs:357-364 [get_interface_for_handle]. *)
Definition get_interface (d : pdb) (h g : N) : pout :=
  match validate d h with
  | Ok _ => match get_inst d h g with Some it => OutIface (i_iface it) | None => OutErr NotFound end
  | Err e => OutErr e
  | Panic => OutPanic
  end.

Definition upd_inst (d : pdb) (h g : N) (f : inst -> inst) : pdb :=
  set_handles d (om_upd (p_handles d) h (fun hd => MkH (h_order hd) (om_upd (h_prots hd) g f))).

(** [iter_mut().find(..)] followed by [open_count += 1] (protocol_db.rs:398-408). *)
Fixpoint bump_first (u : usage) (l : list usage) : list usage :=
  match l with
  | [] => []
  | x :: t => if usage_eqb x u then MkU (u_agent x) (u_ctrl x) (u_attr x) (u_count x + 1) :: t
              else x :: bump_first u t
  end.

Definition set_usage (it : inst) (l : list usage) : inst := MkI (i_iface it) (i_drv it) (i_exc it) l.

(** protocol_db.rs:375-443 [add_protocol_usage]. *)
Definition open_usage (d : pdb) (h g : N) (agent ctrl : option N) (attr : N) : pout * pdb :=
  match validate d h, ovalidate d agent, ovalidate d ctrl with
  | Ok _, Ok _, Ok _ =>
    match get_inst d h g with
    | None => (OutErr Unsupported, d)
    | Some it =>
      match usage_new h agent ctrl attr with
      | Err e => (OutErr e, d)
      | Panic => (OutPanic, d)
      | Ok u =>
        let exact := existsb (fun x => usage_eqb x u) (i_usage it) in
        if i_drv it && exact then (OutErr AlreadyStarted, d)
        else if negb (i_exc it) && exact then
          (OutUnit, upd_inst d h g (fun it => set_usage it (bump_first u (i_usage it))))
        else
          let record :=
            if is_none agent then (OutUnit, d)
            else (OutUnit, upd_inst d h g (fun it =>
                    MkI (i_iface it) (i_drv it || has_bit attr OPEN_BY_DRIVER)
                        (i_exc it || has_bit attr OPEN_EXCLUSIVE) (i_usage it ++ [u]))) in
          if (attr =? OPEN_BY_DRIVER) || (attr =? OPEN_EXCLUSIVE) || (attr =? BY_DRIVER_EXCLUSIVE) then
            if i_exc it || i_drv it then (OutErr AccessDenied, d) else record
          else if (attr =? OPEN_BY_CHILD_CONTROLLER) || (attr =? OPEN_BY_HANDLE_PROTOCOL) ||
                  (attr =? OPEN_GET_PROTOCOL) || (attr =? OPEN_TEST_PROTOCOL) then record
          else (OutPanic, d)
      end
    end
  | _, _, _ => (OutErr InvalidParameter, d)
  end.

(** protocol_db.rs:468-472: the usages a close applies to. *)
Definition close_match (agent ctrl attr : option N) (x : usage) : bool :=
  oeqb (u_agent x) agent && oeqb (u_ctrl x) ctrl && match attr with None => true | Some a => u_attr x =? a end.

(** Removal of the last element satisfying [p] ([rposition] then [remove]), with the element removed. *)
Fixpoint remove_last (p : usage -> bool) (l : list usage) : option (usage * list usage) :=
  match l with
  | [] => None
  | x :: t =>
    match remove_last p t with
    | Some (u, t') => Some (u, x :: t')
    | None => if p x then Some (x, t) else None
    end
  end.

(** protocol_db.rs:467-487: the loop; every round removes one usage, so [length usage] rounds suffice. *)
Fixpoint close_loop (n : nat) (p : usage -> bool) (it : inst) (removed : bool) : inst * bool :=
  match n with
  | O => (it, removed)
  | S n' =>
    match remove_last p (i_usage it) with
    | None => (it, removed)
    | Some (u, l) =>
      close_loop n' p
        (MkI (i_iface it) (if has_bit (u_attr u) OPEN_BY_DRIVER then false else i_drv it)
             (if has_bit (u_attr u) OPEN_EXCLUSIVE then false else i_exc it) l) true
    end
  end.

(** protocol_db.rs:445-488 [remove_protocol_usage]. *)
Definition close_usage (d : pdb) (h g : N) (agent ctrl attr : option N) : pout * pdb :=
  match validate d h, ovalidate d agent, ovalidate d ctrl with
  | Ok _, Ok _, Ok _ =>
    match get_inst d h g with
    | None => (OutErr NotFound, d)
    | Some it =>
      let '(it', removed) := close_loop (S (length (i_usage it))) (close_match agent ctrl attr) it false in
      (if removed then OutUnit else OutErr NotFound, upd_inst d h g (fun _ => it'))
    end
  | _, _, _ => (OutErr InvalidParameter, d)
  end.

(** protocol_db.rs:490-502 [get_open_protocol_information_by_protocol]. *)
Definition open_info (d : pdb) (h g : N) : pout :=
  match validate d h with
  | Ok _ => match get_inst d h g with Some it => OutUsages (i_usage it) | None => OutErr NotFound end
  | Err e => OutErr e
  | Panic => OutPanic
  end.

(** protocol_db.rs:504-514 [get_open_protocol_information]. *)
Definition open_info_all (d : pdb) (h : N) : pout :=
  match om_get (p_handles d) h with
  | Some hd => OutInfo (map (fun gi => (fst gi, i_usage (snd gi))) (h_prots hd))
  | None => OutErr NotFound
  end.

(** protocol_db.rs:516-521 [get_protocols_on_handle]. *)
Definition protocols_on (d : pdb) (h : N) : pout :=
  match om_get (p_handles d) h with
  | Some hd => OutGuids (om_keys (h_prots hd))
  | None => OutErr InvalidParameter
  end.

(** protocol_db.rs:215-219 [registered_protocols]. *)
Definition registered_protocols (d : pdb) : list N :=
  om_keys (fold_left (fun s g => om_set s g tt) (flat_map (fun kh => om_keys (h_prots (snd kh))) (p_handles d)) []).

(** protocol_db.rs:523-535 [register_protocol_notify]. *)
Definition register_notify (d : pdb) (g ev : N) : pout * pdb :=
  let r := p_nreg d in
  let n := MkN ev r [] in
  let ns := match om_get (p_notif d) g with
            | Some _ => om_upd (p_notif d) g (fun l => l ++ [n])
            | None => om_set (p_notif d) g [n]
            end in
  (OutReg r, MkP (p_seed d) (p_fuel d) (p_handles d) ns (p_hash d) (p_next d) (r + 1)).

(** protocol_db.rs:537-547 [unregister_protocol_notify_event(s)]. *)
Definition unregister_event (d : pdb) (ev : N) : pdb :=
  set_notif d (map (fun kl => (fst kl, filter (fun n => negb (nt_event n =? ev)) (snd kl))) (p_notif d)).
Definition unregister_events (d : pdb) (evs : list N) : pdb := fold_left unregister_event evs d.

(** protocol_db.rs:551-555 on the registrations of one protocol: the first one with the key, if it has a fresh
    handle, yields its smallest one. *)
Fixpoint pop_fresh (ns : list notify) (r : N) : option (N * list notify) :=
  match ns with
  | [] => None
  | n :: t =>
    if nt_reg n =? r then
      match nt_fresh n with
      | [] => None
      | (h, _) :: f => Some (h, MkN (nt_event n) (nt_reg n) f :: t)
      end
    else match pop_fresh t r with Some (h, t') => Some (h, n :: t') | None => None end
  end.

(** protocol_db.rs:549-558 [next_handle_for_registration]. *)
Fixpoint next_in (m : omap (list notify)) (r : N) : option (N * omap (list notify)) :=
  match m with
  | [] => None
  | (g, ns) :: t =>
    match pop_fresh ns r with
    | Some (h, ns') => Some (h, (g, ns') :: t)
    | None => match next_in t r with Some (h, t') => Some (h, (g, ns) :: t') | None => None end
    end
  end.
Definition next_handle (d : pdb) (r : N) : option N * pdb :=
  match next_in (p_notif d) r with
  | Some (h, m) => (Some h, set_notif d m)
  | None => (None, d)
  end.

(** protocol_db.rs:560-588 [get_child_handles]; sort and dedup through the ordered map.  [None] is the panic of
    the [expect] on line 577. *)
Definition child_of (u : usage) : list (option N) :=
  if has_bit (u_attr u) OPEN_BY_CHILD_CONTROLLER then [u_ctrl u] else [].
Fixpoint all_some (l : list (option N)) : option (list N) :=
  match l with
  | [] => Some []
  | Some x :: t => match all_some t with Some r => Some (x :: r) | None => None end
  | None :: _ => None
  end.
Definition child_handles (d : pdb) (h : N) : pout :=
  match om_get (p_handles d) h with
  | None => OutHandles []
  | Some hd =>
    match all_some (flat_map (fun gi => flat_map child_of (i_usage (snd gi))) (h_prots hd)) with
    | None => OutPanic
    | Some l => OutHandles (om_keys (fold_left (fun s k => om_set s k tt) l []))
    end
  end.

(** One call of the database. *)
Inductive pop :=
| OInstall (h : option N) (g i : N)
| OUninstall (h g i : N)
| OLocate (g : option N)
| OLocateProtocol (g : N)
| OGetInterface (h g : N)
| OValidate (h : N)
| OOpen (h g : N) (agent ctrl : option N) (attr : N)
| OClose (h g : N) (agent ctrl attr : option N)
| OOpenInfo (h g : N)
| OOpenInfoAll (h : N)
| OProtocols (h : N)
| ORegistered
| ORegister (g ev : N)
| OUnregister (evs : list N)
| ONext (r : N)
| OChildren (h : N)
| OHashing.

Definition pstep (d : pdb) (o : pop) : pout * pdb :=
  match o with
  | OInstall h g i => install d h g i
  | OUninstall h g i => uninstall d h g i
  | OLocate g => (locate_handles d g, d)
  | OLocateProtocol g => (locate_protocol d g, d)
  | OGetInterface h g => (get_interface d h g, d)
  | OValidate h => (match validate d h with Ok _ => OutUnit | Err e => OutErr e | Panic => OutPanic end, d)
  | OOpen h g a c attr => open_usage d h g a c attr
  | OClose h g a c attr => close_usage d h g a c attr
  | OOpenInfo h g => (open_info d h g, d)
  | OOpenInfoAll h => (open_info_all d h, d)
  | OProtocols h => (protocols_on d h, d)
  | ORegistered => (OutGuids (registered_protocols d), d)
  | ORegister g ev => register_notify d g ev
  | OUnregister evs => (OutUnit, unregister_events d evs)
  | ONext r => let '(h, d') := next_handle d r in (OutNext h, d')
  | OChildren h => (child_handles d h, d)
  | OHashing => (OutUnit, enable_handle_hashing d)
  end.

(** A history: the calls made so far with their results, most recent first, and the state they lead to. *)
Definition pcall := (pop * pout)%type.
Fixpoint prun (d : pdb) (tr : list pcall) (ops : list pop) : list pcall * pdb :=
  match ops with
  | [] => (tr, d)
  | o :: t => let '(r, d') := pstep d o in prun d' ((o, r) :: tr) t
  end.

(** protocol_db.rs:640-663 [init_protocol_db]; [None] is the panic of the [expect] or of the [assert_eq!]. *)
Definition WELL_KNOWN_GUID : N := 0xfced7c96356e48cba9a9e089b2ddf49b.
Fixpoint init_handles (d : pdb) (targets : list N) : option pdb :=
  match targets with
  | [] => Some (enable_handle_hashing d)
  | t :: rest =>
    match install d None WELL_KNOWN_GUID 0 with
    | (OutHandle h _, d') => if h =? t then init_handles d' rest else None
    | _ => None
    end
  end.
Definition init_protocol_db (d : pdb) : option pdb := init_handles d [1;2;3;4;5;6;7;8;9;10].
