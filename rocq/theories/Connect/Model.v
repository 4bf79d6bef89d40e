(** Model of the driver services (patina_dxe_core/src/driver_services.rs): ConnectController and
    DisconnectController, on top of the protocol database (Protocol.Model).

    Drivers are code outside this model.  Every call of a driver function (an override protocol, the security
    protocol, Supported, Start, Stop) returns a result that may depend on everything that happened before, and may
    make any database calls; connect or disconnect calls made from inside a driver are covered in so far as they
    are database calls.  Driver functions are assumed to return.  Interface pointers of driver bindings are
    assumed valid; a null override protocol is the panic of its [expect].  Performance records are not modelled. *)
From Verif Require Import Base.Prelude Base.Omap Protocol.Model Protocol.Spec Protocol.Services.
Local Open Scope N_scope.

(** What an observer of the drivers sees, in the order the calls return.  Bindings and other interfaces,
    controllers, children and device paths are pointers; a null remaining path is 0. *)
Inductive cev :=
| EPlatform (this controller : N) (answer : option N)
| EFamily (this version : N)
| EBus (this controller : N) (answer : option N)
| EAuth (controller : N) (path : list N) (verdict : option efi_error)
| ESupported (b controller dp : N) (ok : bool)
| EStart (b controller dp : N) (ok : bool)
| EStop (b controller : N) (children : list N) (ok : bool).

(** What happened (oldest first), and the protocol database with its calls. *)
Record cst := MkC { c_ev : list cev; c_ps : pstate }.
Definition c_db (s : cst) : pdb := snd (c_ps s).
Definition log (s : cst) (e : cev) : cst := MkC (c_ev s ++ [e]) (c_ps s).
Definition perform (s : cst) (ops : list pop) : cst := MkC (c_ev s) (calls (c_ps s) ops).

(** The world the services run in.  [ce_sort key l] is [sort_unstable_by] with descending [key]. *)
Record cenv := MkCE {
  ce_version : cst -> N -> N;                                      (* Version field of a binding *)
  ce_sort : (N -> N) -> list N -> list N;
  ce_platform : cst -> N -> N -> N -> option N * list pop;         (* this, controller, previous image handle *)
  ce_family : cst -> N -> N * list pop;                            (* this; GetVersion *)
  ce_bus : cst -> N -> N -> option N * list pop;                   (* this, previous image handle *)
  ce_path : cst -> N -> option N -> option (list N);               (* path bytes, None when malformed *)
  ce_auth : cst -> N -> list N -> option efi_error * list pop;     (* this, path; None is EFI_SUCCESS *)
  ce_supported : cst -> N -> N -> N -> bool * list pop;            (* binding, controller, remaining path *)
  ce_start : cst -> N -> N -> N -> bool * list pop;
  ce_stop : cst -> N -> N -> list N -> bool * list pop;            (* binding, controller, children *)
  ce_end : cst -> N -> bool }.                                     (* the path at this address is an end node *)

(** r-efi protocol GUIDs named in driver_services.rs and patina_pi protocols/security2.rs:30. *)
Definition DRIVER_BINDING : N := 0xab31a01843b41a4da5c00c09261e9f71.
Definition PLATFORM_OVERRIDE : N := 0x38c7306b91a3d4119a3b0090273fc14d.
Definition FAMILY_OVERRIDE : N := 0x9e12eeb136da814191f804a4923766a7.
Definition BUS_OVERRIDE : N := 0x85b2c13b158a824aaabf4d7d13fb3265.
Definition DEVICE_PATH : N := 0x916e57093f6dd2118e3900a0c969723b.
Definition SECURITY2 : N := 0x582fab943814f14e915218941a3a0e68.

(** A step that may not return: the model's [loop]s carry fuel. *)
Inductive mres (A : Type) := Got (a : A) | MPanic | MHang.
Arguments Got {A} a.
Arguments MPanic {A}.
Arguments MHang {A}.

(** driver_services.rs:27-37 [get_bindings_for_handles]. *)
Definition bindings_of (d : pdb) (hs : list N) : list N :=
  flat_map (fun h => match get_interface d h DRIVER_BINDING with OutIface i => [i] | _ => [] end) hs.

(** driver_services.rs:53-63, 112-121: ask for image handles until the protocol reports failure. *)
Fixpoint get_drivers (fuel : nat) (f : cst -> N -> option N * list pop) (ev : option N -> cev) (s : cst) (prev : N)
  (acc : list N)
  : mres (list N) * cst :=
  match fuel with
  | O => (MHang, s)
  | S k =>
    let '(r, ops) := f s prev in
    let s1 := log (perform s ops) (ev r) in
    match r with
    | Some h => get_drivers k f ev s1 h (acc ++ [h])
    | None => (Got acc, s1)
    end
  end.

(** driver_services.rs:39-66 [get_platform_driver_override_bindings]. *)
Definition platform_bindings (fuel : nat) (env : cenv) (s : cst) (c : N) : mres (list N) * cst :=
  match locate_protocol (c_db s) PLATFORM_OVERRIDE with
  | OutIface p =>
    if p =? 0 then (MPanic, s)
    else
      match get_drivers fuel (fun s prev => ce_platform env s p c prev) (EPlatform p c) s 0 [] with
      | (Got hs, s1) => (Got (bindings_of (c_db s1) hs), s1)
      | (r, s1) => (r, s1)
      end
  | _ => (Got [], s)
  end.

(** driver_services.rs:77-90: the family override drivers by version; a later handle replaces an earlier one of
    the same version. *)
Fixpoint family_map (env : cenv) (s : cst) (hs : list N) (m : omap N) : mres (omap N) * cst :=
  match hs with
  | [] => (Got m, s)
  | h :: t =>
    match get_interface (c_db s) h FAMILY_OVERRIDE with
    | OutIface p =>
      if p =? 0 then (MPanic, s)
      else let '(v, ops) := ce_family env s p in family_map env (log (perform s ops) (EFamily p v)) t (om_set m v h)
    | _ => family_map env s t m
    end
  end.

(** driver_services.rs:68-94 [get_family_override_bindings]. *)
Definition family_bindings (env : cenv) (s : cst) : mres (list N) * cst :=
  match locate_handles (c_db s) (Some DRIVER_BINDING) with
  | OutHandles hs =>
    match family_map env s hs [] with
    | (Got m, s1) => (Got (bindings_of (c_db s1) (rev (map snd m))), s1)
    | (MPanic, s1) => (MPanic, s1)
    | (MHang, s1) => (MHang, s1)
    end
  | _ => (Got [], s)
  end.

(** driver_services.rs:96-124 [get_bus_specific_override_bindings]. *)
Definition bus_bindings (fuel : nat) (env : cenv) (s : cst) (c : N) : mres (list N) * cst :=
  match get_interface (c_db s) c BUS_OVERRIDE with
  | OutIface p =>
    if p =? 0 then (MPanic, s)
    else
      match get_drivers fuel (fun s prev => ce_bus env s p prev) (EBus p c) s 0 [] with
      | (Got hs, s1) => (Got (bindings_of (c_db s1) hs), s1)
      | (r, s1) => (r, s1)
      end
  | _ => (Got [], s)
  end.

(** driver_services.rs:126-136 [get_all_driver_bindings]. *)
Definition all_bindings (env : cenv) (s : cst) : list N :=
  match locate_handles (c_db s) (Some DRIVER_BINDING) with
  | OutHandles hs => ce_sort env (ce_version env s) (bindings_of (c_db s) hs)
  | _ => []
  end.

(** [retain(|x| !l.contains(x))]. *)
Definition mem (x : N) (l : list N) : bool := existsb (N.eqb x) l.
Definition without (seen l : list N) : list N := filter (fun x => negb (mem x seen)) l.

(** driver_services.rs:139-183 [authenticate_connect]; the verdict and whether the security protocol was asked. *)
Definition authenticate (env : cenv) (s : cst) (c : N) (dp : option N) (recursive : bool) : option efi_error * cst :=
  match get_interface (c_db s) c DEVICE_PATH with
  | OutIface path =>
    match locate_protocol (c_db s) SECURITY2 with
    | OutIface sec =>
      match ce_path env s path (if recursive then None else dp) with
      | Some bytes =>
        let '(v, ops) := ce_auth env s sec bytes in
        (v, log (perform s ops) (EAuth c bytes v))
      | None => (None, s)
      end
    | _ => (None, s)
    end
  | _ => (None, s)
  end.

(** driver_services.rs:192-215: the candidates, from the five sources. *)
Definition candidates (fuel : nat) (env : cenv) (s : cst) (c : N) (drivers : list N) : mres (list N) * cst :=
  let c1 := bindings_of (c_db s) drivers in
  match platform_bindings fuel env s c with
  | (Got l2, s2) =>
    let c2 := c1 ++ without c1 l2 in
    match family_bindings env s2 with
    | (Got l3, s3) =>
      let c3 := c2 ++ without c2 l3 in
      match bus_bindings fuel env s3 c with
      | (Got l4, s4) =>
        let c4 := c3 ++ without c3 l4 in
        (Got (c4 ++ without c4 (all_bindings env s4)), s4)
      | (r, s4) => (r, s4)
      end
    | (r, s3) => (r, s3)
    end
  | (r, s2) => (r, s2)
  end.

(** driver_services.rs:220-269: one pass over the candidates; the bindings that claimed support (whether or not
    Start succeeded) and whether a Start succeeded. *)
Fixpoint one_pass (env : cenv) (s : cst) (c dp : N) (cands started : list N) (one : bool) : list N * bool * cst :=
  match cands with
  | [] => (started, one, s)
  | b :: t =>
    let '(sup, ops) := ce_supported env s b c dp in
    let s1 := log (perform s ops) (ESupported b c dp sup) in
    if sup then
      let '(ok, ops2) := ce_start env s1 b c dp in
      let s2 := log (perform s1 ops2) (EStart b c dp ok) in
      one_pass env s2 c dp t (started ++ [b]) (one || ok)
    else one_pass env s1 c dp t started one
  end.

(** driver_services.rs:218-274: passes until no driver claims support. *)
Fixpoint passes (fuel : nat) (env : cenv) (s : cst) (c dp : N) (cands : list N) (one : bool) : mres bool * cst :=
  match fuel with
  | O => (MHang, s)
  | S k =>
    let '(started, one1, s1) := one_pass env s c dp cands [] one in
    match started with
    | [] => (Got one1, s1)
    | _ => passes k env s1 c dp (without started cands) one1
    end
  end.

Definition or_null (dp : option N) : N := match dp with Some p => p | None => 0 end.

(** driver_services.rs:185-288 [core_connect_single_controller]. *)
Definition connect_single (fuel : nat) (env : cenv) (s : cst) (c : N) (drivers : list N) (dp : option N)
  : pstatus * cst :=
  match validate (c_db s) c with
  | Ok _ =>
    match candidates fuel env s c drivers with
    | (Got cands, s1) =>
      match passes fuel env s1 c (or_null dp) cands false with
      | (Got true, s2) => (Success, s2)
      | (Got false, s2) =>
        match dp with
        | Some p => if ce_end env s2 p then (Success, s2) else (Failed NotFound, s2)
        | None => (Failed NotFound, s2)
        end
      | (MPanic, s2) => (Panicked, s2)
      | (MHang, s2) => (Hung, s2)
      end
    | (MPanic, s1) => (Panicked, s1)
    | (MHang, s1) => (Hung, s1)
    end
  | Err e => (Failed e, s)
  | Panic => (Panicked, s)
  end.

(** driver_services.rs:311-329 [core_connect_controller].  [depth] bounds the recursion over child handles. *)
Section connect.
Context (fuel : nat) (env : cenv).
Fixpoint connect (depth : nat) (s : cst) (c : N) (drivers : list N) (dp : option N) (recursive : bool) : pstatus * cst :=
  match authenticate env s c dp recursive with
  | (Some e, s1) => (Failed e, s1)
  | (None, s1) =>
    match connect_single fuel env s1 c drivers dp with
    | (Panicked, s2) => (Panicked, s2)
    | (Hung, s2) => (Hung, s2)
    | (st, s2) =>
      if recursive then
        match depth with
        | O => (Hung, s2)
        | S k =>
          match child_handles (c_db s2) c with
          | OutHandles kids =>
            (fix each (kids : list N) (s : cst) : pstatus * cst :=
               match kids with
               | [] => (st, s)
               | h :: t =>
                 match connect k s h [] None true with
                 | (Panicked, s') => (Panicked, s')
                 | (Hung, s') => (Hung, s')
                 | (_, s') => each t s'
                 end
               end) kids s2
          | _ => (Panicked, s2)
          end
        end
      else (st, s2)
    end
  end.
End connect.

(** driver_services.rs:404-421: the agents of the BY_DRIVER usages; [None] is the panic of the [expect]. *)
Definition info_of (d : pdb) (c : N) : list (N * list usage) :=
  match open_info_all d c with OutInfo l => l | _ => [] end.
Definition by_driver_agents (l : list (N * list usage)) : list (option N) :=
  flat_map (fun gu => flat_map (fun u => if has_bit (u_attr u) OPEN_BY_DRIVER then [u_agent u] else []) (snd gu)) l.

(** driver_services.rs:423-425, 465-467: duplicates removed, first occurrences kept. *)
Fixpoint dedup (seen l : list N) : list N :=
  match l with
  | [] => []
  | x :: t => if mem x seen then dedup seen t else x :: dedup (seen ++ [x]) t
  end.

(** driver_services.rs:442-457: the driver still has the controller open by driver; its child handles. *)
Definition still_managing (l : list (N * list usage)) (drv : N) : bool :=
  existsb (fun gu => existsb (fun u => oeqb (u_agent u) (Some drv) && has_bit (u_attr u) OPEN_BY_DRIVER) (snd gu)) l.
Definition kids_of (l : list (N * list usage)) (drv : N) : list N :=
  flat_map (fun gu => flat_map (fun u =>
    if oeqb (u_agent u) (Some drv) && has_bit (u_attr u) OPEN_BY_CHILD_CONTROLLER then
      match u_ctrl u with Some k => [k] | None => [] end
    else []) (snd gu)) l.

Definition run_stop (env : cenv) (s : cst) (b c : N) (kids : list N) : bool * cst :=
  let '(ok, ops) := ce_stop env s b c kids in (ok, log (perform s ops) (EStop b c kids ok)).

(** driver_services.rs:434-509: one driver of the list.  [Err]: the whole call returns the error.
    The boolean says whether the driver counts as disconnected. *)
Definition stop_driver (env : cenv) (s : cst) (c : N) (child : option N) (drv : N) : res efi_error bool * cst :=
  match open_info_all (c_db s) c with
  | OutInfo info =>
    if still_managing info drv then
      let kids := dedup [] (kids_of info drv) in
      let kids' := match child with Some h => filter (fun x => x =? h) kids | None => kids end in
      let only := match child with Some _ => Nat.eqb (length kids) (length kids') | None => false end in
      match get_interface (c_db s) drv DRIVER_BINDING with
      | OutIface b =>
        let '(ok1, s1) := match kids' with [] => (true, s) | _ => run_stop env s b c kids' end in
        let '(ok2, s2) := if ok1 && (is_none child || only) then run_stop env s1 b c [] else (ok1, s1) in
        (Ok ok2, s2)
      | _ => (Err InvalidParameter, s)
      end
    else (Ok false, s)
  | _ => (Ok false, s)
  end.

Fixpoint stop_all (env : cenv) (s : cst) (c : N) (child : option N) (drvs : list N) (one : bool) : pstatus * bool * cst :=
  match drvs with
  | [] => (Success, one, s)
  | d :: t =>
    match stop_driver env s c child d with
    | (Ok b, s1) => stop_all env s1 c child t (one || b)
    | (Err e, s1) => (Failed e, one, s1)
    | (Panic, s1) => (Panicked, one, s1)
    end
  end.

(** driver_services.rs:389-512 [core_disconnect_controller]. *)
Definition disconnect (env : cenv) (s : cst) (c : N) (driver child : option N) : pstatus * cst :=
  match validate (c_db s) c, ovalidate (c_db s) driver, ovalidate (c_db s) child with
  | Ok _, Ok _, Ok _ =>
    match all_some (by_driver_agents (info_of (c_db s) c)) with
    | None => (Panicked, s)
    | Some agents =>
      let drvs := dedup [] agents in
      let drvs := match driver with Some d => filter (fun x => x =? d) drvs | None => drvs end in
      match stop_all env s c child drvs false with
      | (Success, one, s1) =>
        if one || match drvs with [] => true | _ => false end then (Success, s1) else (Failed NotFound, s1)
      | (st, _, s1) => (st, s1)
      end
    end
  | _, _, _ => (Failed InvalidParameter, s)
  end.
