(** Model of the protocol boot services (patina_dxe_core/src/protocols.rs) on top of the protocol database.
    Output pointers are assumed valid and non-null, so the null checks are left out.  Pool allocation of returned
    buffers and logging are not modelled. *)
From Verif Require Import Base.Prelude Base.Omap Protocol.Model Protocol.Spec.
Local Open Scope N_scope.

(** The database together with the calls made on it so far (most recent first). *)
Definition pstate := (list pcall * pdb)%type.

(** One call under the lock. *)
Definition call (s : pstate) (o : pop) : pout * pstate :=
  let '(r, d') := pstep (snd s) o in (r, ((o, r) :: fst s, d')).
Fixpoint calls (s : pstate) (ops : list pop) : pstate :=
  match ops with [] => s | o :: t => calls (snd (call s o)) t end.

(** Code the services run that is outside this model: notification callbacks run by [signal_event], the drivers'
    Start and Stop functions run by [core_connect_controller]/[core_disconnect_controller], and the device path
    comparison of [core_locate_device_path].  Each may depend on everything that happened and may itself make any
    database calls. *)
Record penv := MkEnv {
  e_signal : list pcall -> N -> bool * list pop;           (* the event is closed; calls made by callbacks *)
  e_disc : list pcall -> N -> option N -> bool * list pop; (* disconnect succeeded; calls made by drivers *)
  e_conn : list pcall -> N -> list pop;                    (* calls made by drivers while connecting *)
  e_same_path : list pcall -> N -> option N }.             (* handle whose device path equals the interface *)

Inductive pstatus := Success | Failed (e : efi_error) | Panicked | Hung.

Definition of_out (r : pout) : pstatus :=
  match r with OutErr e => Failed e | OutPanic => Panicked | OutHang => Hung | _ => Success end.

(** protocols.rs:36-43: signal every event, remember the closed ones. *)
Fixpoint signal_all (env : penv) (s : pstate) (evs : list N) (closed : list N) : list N * pstate :=
  match evs with
  | [] => (closed, s)
  | e :: t =>
    let '(inv, ops) := e_signal env (fst s) e in
    signal_all env (calls s ops) t (if inv then closed ++ [e] else closed)
  end.

(** protocols.rs:28-48 [core_install_protocol_interface]. *)
Definition core_install (env : penv) (s : pstate) (h : option N) (g i : N) : pstatus * option N * pstate :=
  match call s (OInstall h g i) with
  | (OutHandle key evs, s1) =>
    let '(closed, s2) := signal_all env s1 evs [] in
    let '(_, s3) := call s2 (OUnregister closed) in
    (Success, Some key, s3)
  | (r, s1) => (of_out r, None, s1)
  end.

Definition nonnull (h : N) : option N := if h =? 0 then None else Some h.

(** protocols.rs:50-73 [install_protocol_interface]: the handle cell is updated on success only. *)
Definition svc_install (env : penv) (s : pstate) (h g i : N) : pstatus * N * pstate :=
  match core_install env s (nonnull h) g i with
  | (Success, Some key, s') => (Success, key, s')
  | (st, _, s') => (st, h, s')
  end.

(** The usages of an instance; [NotFound] is treated as none (protocols.rs:96-100, 123-127, 372-376). *)
Definition usages_of (s : pstate) (h g : N) : pstatus * list usage * pstate :=
  match call s (OOpenInfo h g) with
  | (OutUsages l, s') => (Success, l, s')
  | (OutErr NotFound, s') => (Success, [], s')
  | (r, s') => (of_out r, [], s')
  end.

(** protocols.rs:92-118: disconnect the drivers that hold the instance, one at a time. *)
Fixpoint disc_loop (fuel : nat) (env : penv) (s : pstate) (h g : N) : pstatus * bool * pstate :=
  match fuel with
  | O => (Hung, false, s)
  | S f =>
    match usages_of s h g with
    | (Success, us, s1) =>
      match find (fun u => has_bit (u_attr u) OPEN_BY_DRIVER) us with
      | None => (Success, true, s1)
      | Some u =>
        let '(ok, ops) := e_disc env (fst s1) h (u_agent u) in
        let s2 := calls s1 ops in
        if ok then disc_loop f env s2 h g else (Success, false, s2)
      end
    | (st, _, s1) => (st, false, s1)
    end
  end.

Definition SOFT_OPENS : N := N.lor OPEN_BY_HANDLE_PROTOCOL (N.lor OPEN_GET_PROTOCOL OPEN_TEST_PROTOCOL).

(** protocols.rs:129-149: drop the informational usages. *)
Fixpoint drop_soft (s : pstate) (h g : N) (us : list usage) (unclosed : bool) : bool * pstate :=
  match us with
  | [] => (unclosed, s)
  | u :: t =>
    if has_bit (u_attr u) SOFT_OPENS then
      match call s (OClose h g (u_agent u) (u_ctrl u) (Some (u_attr u))) with
      | (OutUnit, s1) => drop_soft s1 h g t unclosed
      | (_, s1) => drop_soft s1 h g t true
      end
    else drop_soft s h g t true
  end.

(** protocols.rs:152-159: the tail of the uninstall. *)
Definition finish_uninstall (env : penv) (s : pstate) (h g i : N) (fail : bool) : pstatus * pstate :=
  if fail then (Failed AccessDenied, calls s (e_conn env (fst s) h))
  else let '(r, s') := call s (OUninstall h g i) in (of_out r, s').

(** protocols.rs:75-160 [core_uninstall_protocol_interface].  [fuel] bounds the rounds of the disconnect loop. *)
Definition core_uninstall (fuel : nat) (env : penv) (s : pstate) (h g i : N) : pstatus * pstate :=
  match call s (OGetInterface h g) with
  | (OutIface found, s1) =>
    if negb (found =? i) then (Failed NotFound, s1)
    else
      match disc_loop fuel env s1 h g with
      | (Success, closed, s2) =>
        if closed then
          match usages_of s2 h g with
          | (Success, us, s3) =>
            let '(unclosed, s4) := drop_soft s3 h g us false in
            finish_uninstall env s4 h g i unclosed
          | (st, _, s3) => (st, s3)
          end
        else finish_uninstall env s2 h g i true
      | (st, _, s2) => (st, s2)
      end
  | (r, s1) => (of_out r, s1)
  end.

(** protocols.rs:179-191. *)
Definition DUMMY_GUID : N := 0x57CBD62E783A394C9A2ACA037841D286.

(** protocols.rs:193-243 [reinstall_protocol_interface].  The failure of removing the dummy interface is a
    [debug_assert!] only; it is not modelled as a panic. *)
Definition svc_reinstall (fuel : nat) (env : penv) (s : pstate) (h g old new : N) : pstatus * pstate :=
  match call s (OInstall (Some h) DUMMY_GUID 0) with
  | (OutHandle _ _, s1) =>
    match core_uninstall fuel env s1 h g old with
    | (Success, s2) =>
      match core_install env s2 (Some h) g new with
      | (Success, _, s3) =>
        let s4 := snd (call s3 (OUninstall h DUMMY_GUID 0)) in
        (Success, calls s4 (e_conn env (fst s4) h))
      | (st, _, s3) => (st, snd (call s3 (OUninstall h DUMMY_GUID 0)))
      end
    | (st, s2) => (st, snd (call s2 (OUninstall h DUMMY_GUID 0)))
    end
  | (r, s1) => (of_out r, s1)
  end.

(** protocols.rs:364-367: a handle argument that is not valid counts as absent. *)
Definition valid_or_none (s : pstate) (h : N) : option N * pstate :=
  match call s (OValidate h) with
  | (OutUnit, s') => (Some h, s')
  | (_, s') => (None, s')
  end.

(** protocols.rs:345-425 [open_protocol]; the third component is the value written to the interface cell. *)
Definition svc_open (env : penv) (s : pstate) (h g agent ctrl attr : N) : pstatus * option N * pstate :=
  let '(a, s1) := valid_or_none s agent in
  let '(c, s2) := valid_or_none s1 ctrl in
  let finish s :=
    match call s (OOpen h g a c attr) with
    | (OutErr Unsupported, s') => (Failed Unsupported, Some 0, s')
    | (OutErr AlreadyStarted, s') =>
      match call s' (OGetInterface h g) with
      | (OutIface i, s'') =>
        if has_bit attr OPEN_BY_DRIVER then (Failed AlreadyStarted, Some i, s'')
        else (Success, if attr =? OPEN_TEST_PROTOCOL then None else Some i, s'')
      | (r, s'') => (if has_bit attr OPEN_BY_DRIVER then Panicked else of_out r, None, s'')
      end
    | (OutUnit, s') =>
      match call s' (OGetInterface h g) with
      | (OutIface i, s'') => (Success, if attr =? OPEN_TEST_PROTOCOL then None else Some i, s'')
      | (r, s'') => (of_out r, None, s'')
      end
    | (r, s') => (of_out r, None, s')
    end in
  if has_bit attr OPEN_EXCLUSIVE then
    match usages_of s2 h g with
    | (Success, us, s3) =>
      match find (fun u => has_bit (u_attr u) OPEN_BY_DRIVER && negb (has_bit (u_attr u) OPEN_EXCLUSIVE) &&
                           negb (oeqb (u_agent u) a)) us with
      | Some u =>
        let '(ok, ops) := e_disc env (fst s3) h (u_agent u) in
        let s4 := calls s3 ops in
        if ok then finish s4 else (Failed AccessDenied, None, s4)
      | None => finish s3
      end
    | (st, _, s3) => (st, None, s3)
    end
  else finish s2.

(** protocols.rs:330-343 [handle_protocol]. *)
Definition DXE_CORE_HANDLE : N := 1.
Definition svc_handle_protocol (env : penv) (s : pstate) (h g : N) : pstatus * option N * pstate :=
  svc_open env s h g DXE_CORE_HANDLE 0 OPEN_BY_HANDLE_PROTOCOL.

(** protocols.rs:427-462 [close_protocol]. *)
Definition svc_close (s : pstate) (h g agent ctrl : N) : pstatus * pstate :=
  match call s (OValidate agent) with
  | (OutUnit, s1) =>
    if ctrl =? 0 then let '(r, s') := call s1 (OClose h g (Some agent) None None) in (of_out r, s')
    else match call s1 (OValidate ctrl) with
         | (OutUnit, s2) => let '(r, s') := call s2 (OClose h g (Some agent) (Some ctrl) None) in (of_out r, s')
         | (_, s2) => (Failed InvalidParameter, s2)
         end
  | (_, s1) => (Failed InvalidParameter, s1)
  end.

(** protocols.rs:502-536: reading the arguments of [install_multiple_protocol_interfaces].  A device path that is
    already installed on a valid handle stops the call; looking for it opens the device path of every handle. *)
Definition DEVICE_PATH_GUID : N := 0x916E57093F6DD2118E3900A0C969723B.
Fixpoint probe_paths (env : penv) (s : pstate) (hs : list N) : pstate :=
  match hs with
  | [] => s
  | h :: t => let '(_, _, s') := svc_handle_protocol env s h DEVICE_PATH_GUID in probe_paths env s' t
  end.
Fixpoint check_paths (env : penv) (s : pstate) (items : list (N * N)) : bool * pstate :=
  match items with
  | [] => (false, s)
  | (g, i) :: t =>
    if g =? DEVICE_PATH_GUID then
      let '(r, s1) := call s (OLocate (Some DEVICE_PATH_GUID)) in
      let s2 := match r with OutHandles hs => probe_paths env s1 hs | _ => s1 end in
      match e_same_path env (fst s2) i with
      | Some h => match call s2 (OValidate h) with
                  | (OutUnit, s3) => (true, s3)
                  | (_, s3) => check_paths env s3 t
                  end
      | None => check_paths env s2 t
      end
    else check_paths env s t
  end.

(** protocols.rs:544-546: the rollback. *)
Fixpoint uninstall_each (fuel : nat) (env : penv) (s : pstate) (h : N) (done : list (N * N)) : pstate :=
  match done with
  | [] => s
  | (g, i) :: t => uninstall_each fuel env (snd (core_uninstall fuel env s h g i)) h t
  end.
(** protocols.rs:538-552.  After [Hung] nothing further happens in the code; the model still runs the rollback, and
    no theorem speaks about that case. *)
Fixpoint install_each (fuel : nat) (env : penv) (s : pstate) (h : N) (items done : list (N * N)) : pstatus * N * pstate :=
  match items with
  | [] => (Success, h, s)
  | (g, i) :: t =>
    match svc_install env s h g i with
    | (Success, h', s') => install_each fuel env s' h' t (done ++ [(g, i)])
    | (st, h', s') => (st, h', uninstall_each fuel env s' h' done)
    end
  end.
(** protocols.rs:502-553 [install_multiple_protocol_interfaces]. *)
Definition svc_install_multiple (fuel : nat) (env : penv) (s : pstate) (h : N) (items : list (N * N)) : pstatus * N * pstate :=
  let '(dup, s1) := check_paths env s items in
  if dup then (Failed AlreadyStarted, h, s1) else install_each fuel env s1 h items [].

(** protocols.rs:576-579. *)
Fixpoint reinstall_each (env : penv) (s : pstate) (h : N) (done : list (N * N)) : pstate :=
  match done with
  | [] => s
  | (g, i) :: t => reinstall_each env (snd (core_install env s (Some h) g i)) h t
  end.
Fixpoint uninstall_list (fuel : nat) (env : penv) (s : pstate) (h : N) (items done : list (N * N)) : pstatus * pstate :=
  match items with
  | [] => (Success, s)
  | (g, i) :: t =>
    match core_uninstall fuel env s h g i with
    | (Success, s') => uninstall_list fuel env s' h t (done ++ [(g, i)])
    | (_, s') => (Failed InvalidParameter, reinstall_each env s' h done)
    end
  end.
(** protocols.rs:555-586 [uninstall_multiple_protocol_interfaces]. *)
Definition svc_uninstall_multiple (fuel : nat) (env : penv) (s : pstate) (h : N) (items : list (N * N)) : pstatus * pstate :=
  if h =? 0 then (Failed InvalidParameter, s) else uninstall_list fuel env s h items [].

(** protocols.rs:697-728 [locate_protocol]; the second component is the value written to the interface cell. *)
Definition svc_locate_protocol (s : pstate) (g reg : N) : pstatus * option N * pstate :=
  if reg =? 0 then
    match call s (OLocateProtocol g) with
    | (OutIface i, s') => (Success, Some i, s')
    | (r, s') => (of_out r, Some 0, s')
    end
  else
    match call s (ONext reg) with
    | (OutNext (Some h), s1) =>
      match call s1 (OGetInterface h g) with
      | (OutIface i, s2) => (Success, Some i, s2)
      | (_, s2) => (Panicked, None, s2)
      end
    | (_, s1) => (Failed NotFound, None, s1)
    end.

(** protocols.rs:263-328 [locate_handle]: the required size is always reported; handles are written when they fit. *)
Inductive search := SAll | SByRegister (key : N) | SByProtocol (g : N).
Definition svc_locate_handle (s : pstate) (k : search) (size : N) : pstatus * N * list N * pstate :=
  let '(r, s') := match k with
                  | SAll => call s (OLocate None)
                  | SByProtocol g => call s (OLocate (Some g))
                  | SByRegister key => if key =? 0 then (OutErr InvalidParameter, s) else call s (ONext key)
                  end in
  let answer l := if size <? N.of_nat (length l) * 8 then (Failed BufferTooSmall, N.of_nat (length l) * 8, [], s')
                  else (Success, N.of_nat (length l) * 8, l, s') in
  match r with
  | OutHandles [] => (Failed NotFound, size, [], s')
  | OutHandles l => answer l
  | OutNext (Some h) => answer [h]
  | OutNext None => (Failed NotFound, size, [], s')
  | _ => (of_out r, size, [], s')
  end.
