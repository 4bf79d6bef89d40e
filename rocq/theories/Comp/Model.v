(** Model of the component system: typed storage (sdk/patina/src/component/storage.rs), parameters
    (component/params.rs, service.rs, hob.rs), access bookkeeping (component/metadata.rs), components
    (component/struct_component.rs) and their dispatch by the core (patina_dxe_core/src/lib.rs).
    Rust types (TypeId) are numbers; a value stored as [dyn Any] is a type and a number.  Not modelled: logging,
    performance records, and a component body that initialises or runs further components itself. *)
From Verif Require Import Base.Prelude Base.Omap.
Local Open Scope N_scope.

(** storage.rs:36-72 [SparseVec]. *)
Section Sparse.
Context {V : Type}.
Definition sv_get (l : list (option V)) (i : nat) : option V :=
  match nth_error l i with Some (Some v) => Some v | _ => None end.
Definition sv_contains (l : list (option V)) (i : nat) : bool :=
  match sv_get l i with Some _ => true | None => false end.
Fixpoint sv_set (l : list (option V)) (i : nat) (v : V) : list (option V) :=
  match l, i with
  | [], _ => []
  | _ :: t, O => Some v :: t
  | x :: t, S j => x :: sv_set t j v
  end.
Definition sv_insert (l : list (option V)) (i : nat) (v : V) : list (option V) :=
  let l' := if (length l <=? i)%nat then l ++ repeat None (S i - length l) else l in
  sv_set l' i v.
End Sparse.

(** A boxed value: its type and its contents. *)
Notation any := (N * N)%type.
(** storage.rs:93-121 [ConfigRaw]. *)
Record cfg := MkCfg { cf_locked : bool; cf_val : any }.

(** params.rs:565-578: what Commands can queue. *)
Inductive cmd := CmdConfig (ty v : N) | CmdService (ty v : N).

(** storage.rs:193-218 [Storage].  [s_parsers]: hob_parsers, the parsed types by GUID. *)
Record storage := MkStore {
  s_deferred : option (list cmd);
  s_configs : list (option cfg);
  s_config_idx : omap nat;
  s_services : list (option any);
  s_service_idx : omap nat;
  s_parsers : omap (omap unit);
  s_hobs : list (option (list any));
  s_hob_idx : omap nat;
  s_boot : bool;                    (* boot_services.is_init() *)
  s_runtime : bool }.

(** storage.rs:228-241. *)
Definition new_storage : storage := MkStore None [] [] [] [] [] [] [] false false.

Definition with_deferred (s : storage) (d : option (list cmd)) : storage :=
  MkStore d (s_configs s) (s_config_idx s) (s_services s) (s_service_idx s) (s_parsers s) (s_hobs s) (s_hob_idx s) (s_boot s) (s_runtime s).
Definition with_configs (s : storage) (c : list (option cfg)) (i : omap nat) : storage :=
  MkStore (s_deferred s) c i (s_services s) (s_service_idx s) (s_parsers s) (s_hobs s) (s_hob_idx s) (s_boot s) (s_runtime s).
Definition with_services (s : storage) (v : list (option any)) (i : omap nat) : storage :=
  MkStore (s_deferred s) (s_configs s) (s_config_idx s) v i (s_parsers s) (s_hobs s) (s_hob_idx s) (s_boot s) (s_runtime s).
Definition with_hobs (s : storage) (p : omap (omap unit)) (v : list (option (list any))) (i : omap nat) : storage :=
  MkStore (s_deferred s) (s_configs s) (s_config_idx s) (s_services s) (s_service_idx s) p v i (s_boot s) (s_runtime s).
(** storage.rs:262-269, called at lib.rs:512-515. *)
Definition set_services_tables (s : storage) : storage :=
  MkStore (s_deferred s) (s_configs s) (s_config_idx s) (s_services s) (s_service_idx s) (s_parsers s) (s_hobs s) (s_hob_idx s) true true.

(** [entry(id).or_insert(len)] (storage.rs:282-285, 350-353, 387-389). *)
Definition register (m : omap nat) (ty : N) : nat * omap nat :=
  match om_get m ty with Some i => (i, m) | None => (length m, om_set m ty (length m)) end.

Section Comp.
(** What the types bring along: the default of a configuration type; the GUID and the parser of a HOB type. *)
Variables (default : N -> N) (hob_guid : N -> N) (hob_parse : N -> N -> N).

(** ** Configurations *)

(** storage.rs:297-300. *)
Definition add_config (s : storage) (ty v : N) : storage :=
  let '(i, m) := register (s_config_idx s) ty in
  with_configs s (sv_insert (s_configs s) i (MkCfg true (ty, v))) m.
(** storage.rs:288-294. *)
Definition add_default (s : storage) (ty : N) : nat * storage :=
  let '(i, m) := register (s_config_idx s) ty in
  (i, if sv_contains (s_configs s) i then with_configs s (s_configs s) m
      else with_configs s (sv_insert (s_configs s) i (MkCfg true (ty, default ty))) m).
(** Changing the configuration in a cell. *)
Definition upd_config (s : storage) (i : nat) (f : cfg -> cfg) : storage :=
  match sv_get (s_configs s) i with
  | Some c => with_configs s (sv_set (s_configs s) i (f c)) (s_config_idx s)
  | None => s
  end.
Definition lock_cfg (c : cfg) : cfg := MkCfg true (cf_val c).
Definition unlock_cfg (c : cfg) : cfg := MkCfg false (cf_val c).
Definition write_cfg (v : N) (c : cfg) : cfg := MkCfg (cf_locked c) (fst (cf_val c), v).
(** storage.rs:333-337. *)
Definition unlock_config (s : storage) (i : nat) : storage := upd_config s i unlock_cfg.
(** storage.rs:340-342. *)
Definition lock_configs (s : storage) : storage :=
  with_configs s (map (option_map lock_cfg) (s_configs s)) (s_config_idx s).
(** storage.rs:303-307 with the downcast of params.rs:381-387: [Panic] when the cell is missing or holds another
    type. *)
Definition get_config (s : storage) (ty : N) : res efi_error (option (bool * N)) :=
  match om_get (s_config_idx s) ty with
  | None => Ok None
  | Some i => match sv_get (s_configs s) i with
              | Some c => if fst (cf_val c) =? ty then Ok (Some (cf_locked c, snd (cf_val c))) else Panic
              | None => Panic
              end
  end.

(** ** Services *)

(** storage.rs:345-363, service.rs:167-170: registering a service of type [ty]. *)
Definition add_service (s : storage) (ty v : N) : storage :=
  let '(i, m) := register (s_service_idx s) ty in
  with_services s (sv_insert (s_services s) i (ty, v)) m.
(** storage.rs:372-375 with the downcast of service.rs:276-299: using a service of the wrong type is undefined
    behaviour ([Panic] here). *)
Definition get_service (s : storage) (ty : N) : res efi_error (option N) :=
  match om_get (s_service_idx s) ty with
  | None => Ok None
  | Some i => match sv_get (s_services s) i with
              | Some (ty', v) => if ty' =? ty then Ok (Some v) else Panic
              | None => Ok None
              end
  end.

(** ** HOBs *)

(** storage.rs:377-379. *)
Definition add_parser (s : storage) (ty : N) : storage :=
  let m := match om_get (s_parsers s) (hob_guid ty) with Some m => m | None => [] end in
  with_hobs s (om_set (s_parsers s) (hob_guid ty) (om_set m ty tt)) (s_hobs s) (s_hob_idx s).
(** storage.rs:382-394. *)
Definition register_hob (s : storage) (ty : N) : nat * storage :=
  let '(i, m) := register (s_hob_idx s) ty in
  (i, with_hobs s (s_parsers s) (match sv_get (s_hobs s) i with Some _ => s_hobs s | None => sv_insert (s_hobs s) i [] end) m).
(** storage.rs:397-400. *)
Definition add_hob (s : storage) (ty v : N) : res efi_error storage :=
  let '(i, s1) := register_hob s ty in
  match sv_get (s_hobs s1) i with
  | Some l => Ok (with_hobs s1 (s_parsers s1) (sv_set (s_hobs s1) i (l ++ [(ty, v)])) (s_hob_idx s1))
  | None => Panic
  end.
(** storage.rs:410-418 with the downcasts of hob.rs:209-215, 263-275. *)
Definition get_hob (s : storage) (ty : N) : res efi_error (list N) :=
  match om_get (s_hob_idx s) ty with
  | None => Ok []
  | Some i => match sv_get (s_hobs s) i with
              | Some l => if forallb (fun x => fst x =? ty) l then Ok (map snd l) else Panic
              | None => Ok []
              end
  end.

(** lib.rs:352-354 with hob.rs:116-118: every parser registered for the GUID gets the data. *)
Fixpoint run_parsers (s : storage) (tys : list N) (data : N) : res efi_error storage :=
  match tys with
  | [] => Ok s
  | ty :: t => let* s1 := add_hob s ty (hob_parse ty data) in run_parsers s1 t data
  end.
(** lib.rs:337-358: the guided HOBs of the list, as GUID and data. *)
Fixpoint parse_hobs (s : storage) (hobs : list (N * N)) : res efi_error storage :=
  match hobs with
  | [] => Ok s
  | (g, data) :: t =>
    let tys := match om_get (s_parsers s) g with Some m => om_keys m | None => [] end in
    let* s1 := run_parsers s tys data in parse_hobs s1 t
  end.

(** ** Deferred commands *)

(** storage.rs:151-155, params.rs:567-578. *)
Definition run_cmd (s : storage) (c : cmd) : storage :=
  match c with CmdConfig ty v => add_config s ty v | CmdService ty v => add_service s ty v end.
(** storage.rs:244-248. *)
Definition apply_deferred (s : storage) : storage :=
  match s_deferred s with Some q => fold_left run_cmd q (with_deferred s None) | None => s end.

(** ** Parameters *)

(** params.rs:321-716, storage.rs:507-567, service.rs:319-341, hob.rs:217-237.  A tuple used as a parameter is
    modelled as a pair. *)
Inductive param :=
| PConfig (ty : N) | PConfigMut (ty : N) | PCommands | PBoot | PRuntime | PService (ty : N) | PHob (ty : N)
| PStorage | PStorageMut | POption (p : param) | PPair (p q : param).
(** The state made by [init_state]: an index into the storage. *)
Inductive pst := SIdx (i : nat) | SUnit | SPair (a b : pst).

(** metadata.rs:64-76 [Access]. *)
Record access := MkAccess { a_writes : list nat; a_uses : list nat; a_rall : bool; a_wall : bool; a_deferred : bool }.
Definition no_access : access := MkAccess [] [] false false false.
Definition has (l : list nat) (i : nat) : bool := existsb (Nat.eqb i) l.
(** metadata.rs:93-121. *)
Definition add_config_write (a : access) (i : nat) : access := MkAccess (i :: a_writes a) (i :: a_uses a) (a_rall a) (a_wall a) (a_deferred a).
Definition add_config_read (a : access) (i : nat) : access := MkAccess (a_writes a) (i :: a_uses a) (a_rall a) (a_wall a) (a_deferred a).
Definition has_config_write (a : access) (i : nat) : bool := a_wall a || has (a_writes a) i.
Definition has_config_read (a : access) (i : nat) : bool := a_rall a || has (a_uses a) i.
Definition has_any_config_write (a : access) : bool := a_wall a || negb (length (a_writes a) =? 0)%nat.
Definition has_any_config_read (a : access) : bool := a_rall a || negb (length (a_uses a) =? 0)%nat.
(** metadata.rs:139-152. *)
Definition reads_all (a : access) : access := MkAccess (a_writes a) (a_uses a) true (a_wall a) (a_deferred a).
Definition writes_all (a : access) : access := MkAccess (a_writes a) (a_uses a) true true (a_deferred a).
Definition deferred (a : access) : access := MkAccess (a_writes a) (a_uses a) (a_rall a) (a_wall a) true.

(** [debug_assert!(!b)]. *)
Definition dassert_not (dbg b : bool) : res efi_error unit := if dbg && b then Panic else Ok tt.

(** [init_state] of each parameter type. *)
Fixpoint init_param (dbg : bool) (s : storage) (a : access) (p : param) : res efi_error (storage * access * pst) :=
  match p with
  | PConfig ty =>                                                                  (* params.rs:413-432 *)
    let '(i, s1) := add_default s ty in
    let* _ := dassert_not dbg (a_wall a) in
    let* _ := dassert_not dbg (has_config_write a i) in
    Ok (s1, add_config_read a i, SIdx i)
  | PConfigMut ty =>                                                               (* params.rs:514-547 *)
    let '(i, s1) := add_default s ty in
    let s2 := unlock_config s1 i in
    let* _ := dassert_not dbg (a_wall a) in
    let* _ := dassert_not dbg (a_rall a) in
    let* _ := dassert_not dbg (has_config_write a i) in
    let* _ := dassert_not dbg (has_config_read a i) in
    Ok (s2, add_config_write a i, SIdx i)
  | PCommands =>                                                                   (* params.rs:626-633 *)
    let* _ := dassert_not dbg (a_deferred a) in
    Ok (s, deferred a, SUnit)
  | PBoot | PRuntime => Ok (s, a, SUnit)                                           (* params.rs:651, 669 *)
  | PService ty =>                                                                 (* service.rs:338-340 *)
    let '(i, m) := register (s_service_idx s) ty in
    Ok (with_services s (s_services s) m, a, SIdx i)
  | PHob ty =>                                                                     (* hob.rs:233-236 *)
    let '(i, s1) := register_hob (add_parser s ty) ty in
    Ok (s1, a, SIdx i)
  | PStorageMut =>                                                                 (* storage.rs:523-539 *)
    let* _ := dassert_not dbg (has_any_config_write a) in
    let* _ := dassert_not dbg (has_any_config_read a) in
    Ok (s, writes_all a, SUnit)
  | PStorage =>                                                                    (* storage.rs:558-566 *)
    let* _ := dassert_not dbg (has_any_config_write a) in
    Ok (s, reads_all a, SUnit)
  | POption q => init_param dbg s a q                                              (* params.rs:340-342 *)
  | PPair q r =>                                                                   (* params.rs:704-706 *)
    let* x := init_param dbg s a q in
    let '(s1, a1, st1) := x in
    let* y := init_param dbg s1 a1 r in
    let '(s2, a2, st2) := y in
    Ok (s2, a2, SPair st1 st2)
  end.

(** Configuration cells borrowed while parameters are handed out: the index and whether exclusively. *)
Definition borrows : Type := list (nat * bool).
(** [RefCell::borrow] on a cell: storage.rs:317-322. *)
Definition borrow (s : storage) (held : borrows) (i : nat) : res efi_error cfg :=
  match sv_get (s_configs s) i with
  | None => Panic
  | Some c => if existsb (fun b => (fst b =? i)%nat && snd b) held then Panic else Ok c
  end.
(** [RefCell::borrow_mut]: storage.rs:325-330. *)
Definition borrow_mut (s : storage) (held : borrows) (i : nat) : res efi_error cfg :=
  match sv_get (s_configs s) i with
  | None => Panic
  | Some c => if existsb (fun b => (fst b =? i)%nat) held then Panic else Ok c
  end.

(** [validate] of each parameter type: params.rs:335-338, 408-411, 509-512, 622-624, 647-649, 665-667, 700-702,
    storage.rs:518-521, 553-556, service.rs:334-336, hob.rs:228-231. *)
Definition validate (s : storage) (held : borrows) (p : param) (st : pst) : res efi_error bool :=
  match p, st with
  | PConfig _, SIdx i => let* c := borrow s held i in Ok (cf_locked c)
  | PConfigMut _, SIdx i => let* c := borrow s held i in Ok (negb (cf_locked c))
  | PBoot, _ => Ok (s_boot s)
  | PRuntime, _ => Ok (s_runtime s)
  | PService _, SIdx i => Ok (sv_contains (s_services s) i)
  | PHob _, SIdx i => match sv_get (s_hobs s) i with Some l => Ok (negb (length l =? 0)%nat) | None => Panic end
  | _, _ => Ok true
  end.

(** What a parameter hands to the component. *)
Inductive grant :=
| GConfig (ty v : N) | GConfigMut (ty v : N) | GCommands | GBoot | GRuntime
| GService (ty v : N) | GHob (ty : N) (vs : list N) | GStorage | GStorageMut
| GNone | GSome (g : grant) | GPair (a b : grant).

(** A downcast: params.rs:381-387, service.rs:276-299. *)
Definition downcast (ty : N) (x : any) : res efi_error N := if fst x =? ty then Ok (snd x) else Panic.

(** [get_param] of each parameter type: params.rs:325-333, 400-405, 501-506, 615-620, 640-645, 658-663, 680-686,
    storage.rs:511-516, 546-551, service.rs:323-332, hob.rs:221-226.  The first use of a parameter, which downcasts
    it, is included here. *)
Fixpoint get_param (s : storage) (held : borrows) (p : param) (st : pst) {struct p}
  : res efi_error (grant * storage * borrows) :=
  match p, st with
  | PConfig ty, SIdx i =>
    let* c := borrow s held i in
    let* v := downcast ty (cf_val c) in
    Ok (GConfig ty v, s, (i, false) :: held)
  | PConfigMut ty, SIdx i =>
    let* c := borrow_mut s held i in
    let* v := downcast ty (cf_val c) in
    Ok (GConfigMut ty v, s, (i, true) :: held)
  | PCommands, _ =>
    Ok (GCommands, match s_deferred s with None => with_deferred s (Some []) | Some _ => s end, held)
  | PBoot, _ => Ok (GBoot, s, held)
  | PRuntime, _ => Ok (GRuntime, s, held)
  | PService ty, SIdx i =>
    match sv_get (s_services s) i with
    | Some x => let* v := downcast ty x in Ok (GService ty v, s, held)
    | None => Panic
    end
  | PHob ty, SIdx i =>
    match sv_get (s_hobs s) i with
    | Some l => if forallb (fun x => fst x =? ty) l then Ok (GHob ty (map snd l), s, held) else Panic
    | None => Panic
    end
  | PStorage, _ => Ok (GStorage, s, held)
  | PStorageMut, _ => Ok (GStorageMut, s, held)
  | POption q, _ =>
    let* b := validate s held q st in
    if b then
      let* x := get_param s held q st in
      let '(g, s1, held1) := x in Ok (GSome g, s1, held1)
    else Ok (GNone, s, held)
  | PPair q r, SPair a b =>
    let* x := get_param s held q a in
    let '(g1, s1, held1) := x in
    let* y := get_param s1 held1 r b in
    let '(g2, s2, held2) := y in
    Ok (GPair g1 g2, s2, held2)
  | _, SUnit | _, SIdx _ | _, SPair _ _ => Panic
  end.

(** ** Components *)

(** What a body can do with what it was given. *)
Inductive effect :=
| EWrite (ty v : N)          (* through ConfigMut *)
| ELock (ty : N)             (* ConfigMut::lock: params.rs:471-473 *)
| ECommand (c : cmd)         (* through Commands *)
| EAddConfig (ty v : N) | EAddService (ty v : N) | ELockAll          (* through &mut Storage *)
| ESetConfig (ty v : N) | ELockConfig (ty : N).                      (* through &mut Storage: get_config_mut *)

Record comp := MkComp {
  c_id : N;
  c_params : list param;
  c_state : option (list pst);
  c_failed : option param;          (* metadata.last_failed_param *)
  c_once : bool;                    (* the entry point takes the component by value *)
  c_input : bool;                   (* input.is_some() *)
  c_body : storage -> list grant -> bool * list effect }.   (* succeeds?, and what it does *)
Definition set_state (c : comp) (x : list pst) : comp :=
  MkComp (c_id c) (c_params c) (Some x) (c_failed c) (c_once c) (c_input c) (c_body c).
Definition set_failed (c : comp) (p : param) : comp :=
  MkComp (c_id c) (c_params c) (c_state c) (Some p) (c_once c) (c_input c) (c_body c).

(** params.rs:704-706, 711-716 for the parameter list of a component: struct_component.rs:103-105. *)
Fixpoint init_params (dbg : bool) (s : storage) (a : access) (ps : list param) : res efi_error (storage * access * list pst) :=
  match ps with
  | [] => Ok (s, a, [])
  | p :: t =>
    let* x := init_param dbg s a p in
    let '(s1, a1, st) := x in
    let* y := init_params dbg s1 a1 t in
    let '(s2, a2, r) := y in
    Ok (s2, a2, st :: r)
  end.
Definition initialize (dbg : bool) (s : storage) (c : comp) : res efi_error (storage * comp) :=
  let* x := init_params dbg s no_access (c_params c) in
  let '(s1, _, st) := x in Ok (s1, set_state c st).

(** params.rs:688-696 [try_validate] of the parameter list: the first parameter that is not available. *)
Fixpoint try_validate (s : storage) (ps : list param) (sts : list pst) : res efi_error (option param) :=
  match ps, sts with
  | p :: t, st :: r => let* b := validate s [] p st in if b then try_validate s t r else Ok (Some p)
  | _, _ => Ok None
  end.
(** params.rs:680-686 for the parameter list. *)
Fixpoint get_params (s : storage) (held : borrows) (ps : list param) (sts : list pst) : res efi_error (list grant * storage) :=
  match ps, sts with
  | [], _ => Ok ([], s)
  | p :: t, st :: r =>
    let* x := get_param s held p st in
    let '(g, s1, held1) := x in
    let* y := get_params s1 held1 t r in
    let '(gs, s2) := y in Ok (g :: gs, s2)
  | _ :: _, [] => Panic
  end.

(** Does the component hold such a grant? *)
Fixpoint grants_in (f : grant -> bool) (g : grant) : bool :=
  match g with GSome h => grants_in f h | GPair a b => grants_in f a || grants_in f b | _ => f g end.
Definition granted (f : grant -> bool) (gs : list grant) : bool := existsb (grants_in f) gs.
Definition is_mut_of (ty : N) (g : grant) : bool := match g with GConfigMut t _ => t =? ty | _ => false end.
Definition is_commands (g : grant) : bool := match g with GCommands => true | _ => false end.
Definition is_storage_mut (g : grant) : bool := match g with GStorageMut => true | _ => false end.

(** An effect without the matching grant cannot be written in the body: it has no effect here. *)
Definition run_effect (gs : list grant) (s : storage) (e : effect) : storage :=
  let at_ty ty f := match om_get (s_config_idx s) ty with Some i => upd_config s i f | None => s end in
  match e with
  | EWrite ty v => if granted (is_mut_of ty) gs then at_ty ty (write_cfg v) else s
  | ELock ty => if granted (is_mut_of ty) gs then at_ty ty lock_cfg else s
  | ECommand c => if granted is_commands gs
                  then match s_deferred s with Some q => with_deferred s (Some (q ++ [c])) | None => s end else s
  | EAddConfig ty v => if granted is_storage_mut gs then add_config s ty v else s
  | EAddService ty v => if granted is_storage_mut gs then add_service s ty v else s
  | ELockAll => if granted is_storage_mut gs then lock_configs s else s
  | ESetConfig ty v => if granted is_storage_mut gs then at_ty ty (write_cfg v) else s
  | ELockConfig ty => if granted is_storage_mut gs then at_ty ty lock_cfg else s
  end.

(** A body that ran: the component, the storage it found, what it was handed and what it did. *)
Record run_entry := MkRun { r_id : N; r_store : storage; r_grants : list grant; r_effects : list effect }.

Inductive outcome := Waiting | Ran (ok : bool) (e : run_entry).

(** component.rs:161-166 [run] with struct_component.rs:79-95 [run_unsafe]. *)
Definition run_comp (s : storage) (c : comp) : res efi_error (outcome * storage * comp) :=
  let s1 := apply_deferred s in
  match c_state c with
  | None => Panic
  | Some sts =>
    let* v := try_validate s1 (c_params c) sts in
    match v with
    | Some p => Ok (Waiting, s1, set_failed c p)
    | None =>
      let* x := get_params s1 [] (c_params c) sts in
      let '(gs, s2) := x in
      if negb (c_input c) then Panic                     (* debug_assert, and unwrap in release builds *)
      else
        let '(ok, effs) := c_body c s2 gs in
        Ok (Ran ok (MkRun (c_id c) s2 gs effs), fold_left (run_effect gs) effs s2,
            MkComp (c_id c) (c_params c) (c_state c) (c_failed c) (c_once c) (c_input c && negb (c_once c)) (c_body c))
    end
  end.

(** ** Dispatch *)

(** lib.rs:363-385: every component is tried once; those that did not run are kept.  A component that fails makes
    debug builds panic (lib.rs:379).  Also: what ran. *)
Fixpoint dispatch_components (dbg : bool) (s : storage) (cs : list comp) : res efi_error (storage * list comp * list run_entry) :=
  match cs with
  | [] => Ok (s, [], [])
  | c :: t =>
    let* x := run_comp s c in
    let '(o, s1, c1) := x in
    match o with
    | Waiting =>
      let* y := dispatch_components dbg s1 t in
      let '(s2, kept, log) := y in Ok (s2, c1 :: kept, log)
    | Ran ok e =>
      if dbg && negb ok then Panic
      else let* y := dispatch_components dbg s1 t in
           let '(s2, kept, log) := y in Ok (s2, kept, e :: log)
    end
  end.

(** lib.rs:394-411: alternate with the UEFI driver dispatcher ([drv]: what its next calls report; it does not touch
    the storage) until neither runs anything.  [None]: out of fuel. *)
Fixpoint core_dispatcher (fuel : nat) (dbg : bool) (s : storage) (cs : list comp) (drv : list bool)
  : option (res efi_error (storage * list comp * list bool * list run_entry)) :=
  match fuel with
  | O => None
  | S f =>
    match dispatch_components dbg s cs with
    | Ok (s1, kept, log) =>
      let again drv' :=
        match core_dispatcher f dbg s1 kept drv' with
        | Some (Ok (s2, k2, d2, log2)) => Some (Ok (s2, k2, d2, log ++ log2))
        | x => x
        end in
      if negb (length kept =? length cs)%nat then again drv
      else match drv with
           | true :: d => again d
           | false :: d => Some (Ok (s1, kept, d, log))
           | [] => Some (Ok (s1, kept, [], log))
           end
    | Panic => Some Panic
    | Err e => Some (Err e)
    end
  end.

(** What a platform registers before start: lib.rs:310-334. *)
Inductive build := BComponent (c : comp) | BFirst (c : comp) | BConfig (ty v : N) | BService (ty v : N).
(** [with_component] adds at the end, the core's own components go to the front (lib.rs:522-528). *)
Definition build_step (dbg : bool) (x : storage * list comp) (b : build) : res efi_error (storage * list comp) :=
  let '(s, cs) := x in
  match b with
  | BComponent c => let* y := initialize dbg s c in let '(s1, c1) := y in Ok (s1, cs ++ [c1])
  | BFirst c => let* y := initialize dbg s c in let '(s1, c1) := y in Ok (s1, c1 :: cs)
  | BConfig ty v => Ok (add_config s ty v, cs)
  | BService ty v => Ok (add_service s ty v, cs)
  end.
Fixpoint build_all (dbg : bool) (x : storage * list comp) (bs : list build) : res efi_error (storage * list comp) :=
  match bs with [] => Ok x | b :: t => let* y := build_step dbg x b in build_all dbg y t end.

(** lib.rs:531-570 [start], the part that concerns components: both dispatches with the locking in between. *)
Definition start (fuel : nat) (dbg : bool) (bs : list build) (hobs : list (N * N)) (drv : list bool)
  : option (res efi_error (storage * list comp * list run_entry)) :=
  match build_all dbg (new_storage, []) bs with
  | Ok (s0, cs) =>
    match parse_hobs (set_services_tables s0) hobs with
    | Ok s1 =>
      match core_dispatcher fuel dbg s1 cs drv with
      | Some (Ok (s2, cs2, drv2, log1)) =>
        match core_dispatcher fuel dbg (lock_configs s2) cs2 drv2 with
        | Some (Ok (s3, cs3, _, log2)) => Some (Ok (s3, cs3, log1 ++ log2))
        | Some (Err e) => Some (Err e) | Some Panic => Some Panic | None => None
        end
      | Some (Err e) => Some (Err e) | Some Panic => Some Panic | None => None
      end
    | Err e => Some (Err e) | Panic => Some Panic
    end
  | Err e => Some (Err e) | Panic => Some Panic
  end.
End Comp.
