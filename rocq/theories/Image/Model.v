(** Model of the image services (patina_dxe_core/src/image.rs): LoadImage, StartImage, UnloadImage and Exit as a
    machine whose inputs are the calls made by whatever image code is running.  The code of an image runs inside a
    coroutine; which code runs on top of which is an explicit list of frames.  Statuses are numbers, 0 is SUCCESS.
    Not modelled: performance records, logging, the debugger notification, and image code running inside the
    protocol notifications of an install (drivers and callbacks run by the protocol services are the [penv] of
    Protocol/Services.v: they may make any database calls, but no image service calls). *)
From Verif Require Import Base.Prelude Base.Omap Protocol.Model Protocol.Spec Protocol.Services.
Local Open Scope N_scope.

(** r-efi loaded_image, loaded_image_device_path, hii_package_list; patina_pi security, security2: PROTOCOL_GUID. *)
Definition LOADED_IMAGE : N := 0x5B1B31A1956211d28E3F00A0C969723B.
Definition LOADED_IMAGE_DEVICE_PATH : N := 0xbc62157e3e334fec99202d3b36d750df.
Definition HII_PACKAGE_LIST : N := 0x6a1ee763d47a43b4aabeef1de2ab56fc.
Definition SECURITY : N := 0xA46423E3461749f1B9FFD1BFA9115839.
Definition SECURITY2 : N := 0x94ab2f5814384ef1915218941A3A0E68.

(** protocol_db.rs:28: handle of the DXE core. *)
Definition CORE_HANDLE : N := 1.

(** pecoff/mod.rs: subsystem numbers of the PE header. *)
Definition APPLICATION : N := 10.
Definition BOOT_DRIVER : N := 11.
Definition RUNTIME_DRIVER : N := 12.

(** image.rs:158-174 [PrivateImageData]: what the services look at.  [im_mem] are the pages (base, count) owned by
    the record: the image and, if any, its resource section (image.rs:176-286); dropping the record frees them
    (image.rs:289-311). *)
Record image := MkImage {
  im_started : bool;
  im_unload : bool;                 (* image_info.unload is set; the image itself writes this field *)
  im_kind : N;                      (* pe_info.image_type *)
  im_exit : option (N * N);         (* exit_data: size and address *)
  im_info : N;                      (* image_info_ptr *)
  im_path : N;                      (* image_device_path_ptr *)
  im_hii : option N;                (* hii_resource_section *)
  im_mem : list (N * N) }.

Definition set_started (i : image) : image :=
  MkImage true (im_unload i) (im_kind i) (im_exit i) (im_info i) (im_path i) (im_hii i) (im_mem i).
Definition set_unload (b : bool) (i : image) : image :=
  MkImage (im_started i) b (im_kind i) (im_exit i) (im_info i) (im_path i) (im_hii i) (im_mem i).
Definition set_exit (x : N * N) (i : image) : image :=
  MkImage (im_started i) (im_unload i) (im_kind i) (Some x) (im_info i) (im_path i) (im_hii i) (im_mem i).

(** What loading a PE image produces (image.rs:579-688): its kind, the address of its loaded image protocol, its
    resource section, its pages. *)
Record pe := MkPe { pe_kind : N; pe_info : N; pe_hii : option N; pe_mem : list (N * N) }.
(** image.rs:214-232, 352-368 (no unload function), 1144-1145. *)
Definition new_image (p : pe) (path : N) : image :=
  MkImage false false (pe_kind p) None (pe_info p) path (pe_hii p) (pe_mem p).

(** image.rs:314-331 [DxeCoreGlobalImageData], with the protocol database, the debug image info table
    (config_tables/debug_image_info_table.rs:100-106: the handles of its entries in order) and the runtime image
    list (runtime.rs:135-161: handles in order). *)
Record ist := MkSt {
  i_db : pstate;
  i_imgs : omap image;
  i_cur : option N;                 (* current_running_image *)
  i_ctx : list N;                   (* image_start_contexts, last pushed first *)
  i_dbg : list N;
  i_rt : list N;
  i_next : N }.                     (* names for coroutines: not in the code, each start gets a new one *)

Definition set_db (s : ist) (d : pstate) : ist :=
  MkSt d (i_imgs s) (i_cur s) (i_ctx s) (i_dbg s) (i_rt s) (i_next s).
Definition set_imgs (s : ist) (m : omap image) : ist :=
  MkSt (i_db s) m (i_cur s) (i_ctx s) (i_dbg s) (i_rt s) (i_next s).
Definition set_cur (s : ist) (c : option N) : ist :=
  MkSt (i_db s) (i_imgs s) c (i_ctx s) (i_dbg s) (i_rt s) (i_next s).
Definition set_ctx (s : ist) (c : list N) : ist :=
  MkSt (i_db s) (i_imgs s) (i_cur s) c (i_dbg s) (i_rt s) (i_next s).
Definition set_dbg (s : ist) (l : list N) : ist :=
  MkSt (i_db s) (i_imgs s) (i_cur s) (i_ctx s) l (i_rt s) (i_next s).
Definition set_rt (s : ist) (l : list N) : ist :=
  MkSt (i_db s) (i_imgs s) (i_cur s) (i_ctx s) (i_dbg s) l (i_next s).

(** debug_image_info_table.rs:182-245: the new entry goes behind the last one (the table grows when full). *)
Definition dbg_new (l : list N) (h : N) : list N := l ++ [h].
(** debug_image_info_table.rs:248-315: the first entry of the handle is replaced by the last entry of the table. *)
Fixpoint dbg_replace (l : list N) (h last : N) : list N :=
  match l with [] => [] | x :: t => if x =? h then last :: t else x :: dbg_replace t h last end.
Definition dbg_remove (l : list N) (h : N) : list N :=
  if existsb (N.eqb h) l then removelast (dbg_replace l h (last l 0)) else l.

(** runtime.rs:135-154, 156-161. *)
Definition rt_add (l : list N) (h : N) : list N := l ++ [h].
Definition rt_remove (l : list N) (h : N) : list N := filter (fun x => negb (x =? h)) l.

(** Who called [core_unload_image] and what it does with the result: the UnloadImage service returns it
    (image.rs:1425-1430); StartImage drops it and returns the status and exit data of the start
    (image.rs:1236-1243). *)
Inductive unloader := ByService | ByStart (st : N) (data : option (N * N)).

(** A piece of running image code: an entry point with its coroutine, the image that was running before it, and
    whether StartImage (and not the dispatcher) started it; or an unload function. *)
Inductive frame :=
| FEntry (id h : N) (prev : option N) (svc : bool)
| FUnload (h : N) (k : unloader).

(** What a step leads to.  [Loaded]: LoadImage wrote a handle; [Returned]: the call returned to its caller with a
    status and, from StartImage, exit data; [Entered]: an entry point now runs; [Unloading]: an unload function now
    runs; [Crashed]: a Rust panic; [Wild]: a coroutine that no longer exists was resumed; [Stuck]: a loop in the
    protocol services did not end. *)
Inductive out :=
| Loaded (h : N) (st : N)
| Returned (st : N) (data : option (N * N))
| Entered (h : N)
| Unloading (h : N)
| Crashed | Wild | Stuck.

(** base/src/error.rs: the status of an error. *)
Definition code (e : efi_error) : N :=
  match e with
  | LoadError => 1 | InvalidParameter => 2 | Unsupported => 3 | BadBufferSize => 4 | BufferTooSmall => 5
  | NotReady => 6 | DeviceError => 7 | WriteProtected => 8 | OutOfResources => 9 | VolumeCorrupted => 10
  | NotFound => 14 | AccessDenied => 15 | NotStarted => 19 | AlreadyStarted => 20 | Aborted => 21
  | SecurityViolation => 26 | CompromisedData => 33 | _ => 99
  end.

Section Machine.
(** The drivers and callbacks run by the protocol services, and the bound on their loops. *)
Variables (fuel : nat) (env : penv).

Definition db_call (s : ist) (o : pop) : pout * ist :=
  let '(r, d) := call (i_db s) o in (r, set_db s d).

(** ** Unload *)

(** image.rs:1379-1389: close the usages whose agent is the image. *)
Fixpoint close_uses (d : pstate) (img h g : N) (us : list usage) : pstate :=
  match us with
  | [] => d
  | u :: t =>
    let d' := if oeqb (Some img) (u_agent u)
              then snd (call d (OClose h g (u_agent u) (u_ctrl u) (Some (u_attr u)))) else d in
    close_uses d' img h g t
  end.
(** image.rs:1374-1390. *)
Fixpoint close_protocols (d : pstate) (img h : N) (gs : list N) : pstate :=
  match gs with
  | [] => d
  | g :: t =>
    let '(r, d1) := call d (OOpenInfo h g) in
    let d2 := match r with OutUsages us => close_uses d1 img h g us | _ => d1 end in
    close_protocols d2 img h t
  end.
(** image.rs:1369-1391. *)
Fixpoint close_handles (d : pstate) (img : N) (hs : list N) : pstate :=
  match hs with
  | [] => d
  | h :: t =>
    let '(r, d1) := call d (OProtocols h) in
    let d2 := match r with OutGuids gs => close_protocols d1 img h gs | _ => d1 end in
    close_handles d2 img t
  end.

(** image.rs:1364-1391. *)
Definition close_all (d : pstate) (img : N) : pstate :=
  let '(r, d1) := call d (OLocate None) in
  close_handles d1 img (match r with OutHandles hs => hs | _ => [] end).

(** image.rs:1364-1422: the part of [core_unload_image] after the unload function.  The result of the two
    uninstalls is ignored by the code; a panic or an endless loop inside them is not.  Removing the memory
    protections (image.rs:1420) is not modelled here. *)
Definition remove_image (s : ist) (h : N) : option out * ist :=
  let s1 := set_dbg s (dbg_remove (i_dbg s) h) in
  let s2 := set_db s1 (close_all (i_db s1) h) in
  match om_get (i_imgs s2) h with
  | None => (Some Crashed, s2)
  | Some im =>
    let s3 := set_imgs s2 (om_del (i_imgs s2) h) in
    let '(r1, d1) := core_uninstall fuel env (i_db s3) h LOADED_IMAGE (im_info im) in
    let s4 := set_db s3 d1 in
    match r1 with
    | Panicked => (Some Crashed, s4)
    | Hung => (Some Stuck, s4)
    | _ =>
      let '(r2, d2) := core_uninstall fuel env (i_db s4) h LOADED_IMAGE_DEVICE_PATH (im_path im) in
      let s5 := set_db s4 d2 in
      match r2 with
      | Panicked => (Some Crashed, s5)
      | Hung => (Some Stuck, s5)
      | _ => (None, if im_kind im =? RUNTIME_DRIVER then set_rt s5 (rt_remove (i_rt s5) h) else s5)
      end
    end
  end.

(** What the caller of [core_unload_image] returns (image.rs:1425-1430, 1236-1243). *)
Definition unload_result (k : unloader) (st : N) : out :=
  match k with ByService => Returned st None | ByStart st0 data => Returned st0 data end.

Definition finish_unload (s : ist) (h : N) (k : unloader) : out * ist :=
  match remove_image s h with
  | (Some o, s') => (o, s')
  | (None, s') => (unload_result k 0, s')
  end.

(** image.rs:1335-1363 [core_unload_image] up to the unload function.  [stk] are the frames of the caller. *)
Definition do_unload (s : ist) (stk : list frame) (h : N) (force : bool) (k : unloader) : out * ist * list frame :=
  let '(v, s1) := db_call s (OValidate h) in
  match v with
  | OutUnit =>
    match om_get (i_imgs s1) h with
    | None => (unload_result k (code InvalidParameter), s1, stk)
    | Some im =>
      if im_started im && im_unload im then (Unloading h, s1, FUnload h k :: stk)
      else if im_started im && negb force then (unload_result k (code Unsupported), s1, stk)
      else let '(o, s2) := finish_unload s1 h k in (o, s2, stk)
    end
  | OutErr e => (unload_result k (code e), s1, stk)
  | _ => (Crashed, s1, stk)
  end.

(** The unload function of [h] returned [st] (image.rs:1355-1359). *)
Definition unload_returned (s : ist) (stk : list frame) (h : N) (k : unloader) (st : N) : out * ist * list frame :=
  if st =? 0 then let '(o, s1) := finish_unload s h k in (o, s1, stk)
  else (unload_result k st, s, stk).

(** ** Start and exit *)

(** image.rs:1216-1243: StartImage after [core_start_image] returned [st]. *)
Definition after_start (s : ist) (stk : list frame) (h st : N) : out * ist * list frame :=
  let data := match om_get (i_imgs s) h with Some im => im_exit im | None => None end in
  let app := match om_get (i_imgs s) h with Some im => im_kind im =? APPLICATION | None => false end in
  if negb (st =? 0) || app then do_unload s stk h true (ByStart st data)
  else (Returned st data, s, stk).

(** image.rs:1308-1332: the coroutine of the frame yielded or returned [st]. *)
Definition entry_done (s : ist) (stk : list frame) (h : N) (prev : option N) (svc : bool) (st : N)
  : out * ist * list frame :=
  let s1 := set_cur s prev in
  if svc then after_start s1 stk h st else (Returned st None, s1, stk).

(** image.rs:1246-1308 [core_start_image] up to the entry point, and image.rs:1216 when it fails.  [mem]: the
    coroutine's stack could be allocated (image.rs:1258), otherwise the error. *)
Definition do_start (s : ist) (stk : list frame) (h : N) (svc : bool) (mem : option efi_error)
  : out * ist * list frame :=
  let fail s e := if svc then after_start s stk h (code e) else (Returned (code e) None, s, stk) in
  let '(v, s1) := db_call s (OValidate h) in
  match v with
  | OutUnit =>
    match om_get (i_imgs s1) h with
    | None => fail s1 InvalidParameter
    | Some im =>
      if im_started im then fail s1 InvalidParameter
      else match mem with
           | Some e => fail s1 e
           | None =>
             let id := i_next s1 in
             (Entered h,
              MkSt (i_db s1) (om_set (i_imgs s1) h (set_started im)) (Some h) (id :: i_ctx s1) (i_dbg s1) (i_rt s1)
                  (id + 1),
              FEntry id h (i_cur s1) svc :: stk)
           end
    end
  | OutErr e => fail s1 e
  | _ => (Crashed, s1, stk)
  end.

(** The frames below the coroutine [id], if it is alive: resuming its starter drops everything above it. *)
Fixpoint unwind (stk : list frame) (id : N) : option (N * option N * bool * list frame) :=
  match stk with
  | [] => None
  | FEntry i h prev svc :: t => if i =? id then Some (h, prev, svc, t) else unwind t id
  | FUnload _ _ :: t => unwind t id
  end.

(** image.rs:1439-1494 [exit]: either returns to its caller, with the frames unchanged, or suspends a coroutine. *)
Definition do_exit (s : ist) (stk : list frame) (h st : N) (data : N * N)
  : (out * ist * list frame) :=
  match om_get (i_imgs s) h with
  | None => (Returned (code InvalidParameter) None, s, stk)
  | Some im =>
    if negb (im_started im) then
      match do_unload s stk h true ByService with
      | (Returned r d, s', stk') => (Returned (if r =? 0 then 0 else code InvalidParameter) d, s', stk')
      | x => x
      end
    else if negb (oeqb (Some h) (i_cur s)) then (Returned (code InvalidParameter) None, s, stk)
    else
      let s1 := if negb (fst data =? 0) && negb (snd data =? 0)
                then set_imgs s (om_set (i_imgs s) h (set_exit data im)) else s in
      match i_ctx s1 with
      | [] => (Returned (code AccessDenied) None, s1, stk)
      | id :: ctx =>
        let s2 := set_ctx s1 ctx in
        match unwind stk id with
        | None => (Wild, s2, stk)
        | Some (h', prev, svc, below) => entry_done s2 below h' prev svc st
        end
      end
  end.

(** An entry point returned [st]: image.rs:1285-1295.  The call of [exit] normally suspends the coroutine; when it
    comes back, the coroutine returns. *)
Definition entry_returned (s : ist) (stk : list frame) (id h : N) (prev : option N) (svc : bool) (st : N)
  : out * ist * list frame :=
  match do_exit s (FEntry id h prev svc :: stk) h st (0, 0) with
  | (Returned r d, s', stk') =>
    (* control came back to the coroutine exactly when its frame is still on top *)
    match stk' with
    | FEntry id' _ _ _ :: below =>
      if (id' =? id) && (length stk' =? S (length stk))%nat then entry_done s' below h prev svc st
      else (Returned r d, s', stk')
    | _ => (Returned r d, s', stk')
    end
  | x => x
  end.

(** ** Load *)

(** image.rs:933-984 [authenticate_image]: the security protocols found in the database, and what they answer
    ([None]: success or a warning). *)
Definition find_protocol (d : pstate) (g : N) : bool * pstate :=
  match call d (OLocateProtocol g) with
  | (OutIface i, d') => (negb (i =? 0), d')
  | (_, d') => (false, d')
  end.
Definition authenticate (d : pstate) (from_fv : bool) (ans2 ans1 : option efi_error)
  : res efi_error (option efi_error) * pstate :=
  let '(sec2, d1) := find_protocol d SECURITY2 in
  let '(sec1, d2) := find_protocol d1 SECURITY in
  (if sec2 then
     match ans2 with
     | Some e => Ok (Some e)
     | None => if from_fv then (if sec1 then Ok ans1 else Panic) else Ok None
     end
   else if sec1 then Ok ans1 else Ok None, d2).

(** The arguments of LoadImage, and what the parts that are not modelled here produce: reading the file
    (image.rs:765-930; the flag says it came from a firmware volume), the answers of the security protocols, the
    device path work of image.rs:1042-1068, loading the PE image (image.rs:579-688), and the copy of the device path (image.rs:1110). *)
Record load_args := MkLoad {
  la_parent : N; la_path : N; la_buffer : bool;
  la_fetch : efi_error + bool;
  la_ans2 : option efi_error; la_ans1 : option efi_error;
  la_fix : option efi_error;
  la_pe : efi_error + pe;
  la_copy : efi_error + N }.

(** The calls of image.rs:1127-1141, in order; the first failure ends the load. *)
Definition load_installs (d : pstate) (h path : N) (hii : option N) : pstatus * pstate :=
  match core_install env d (Some h) LOADED_IMAGE_DEVICE_PATH path with
  | (Success, _, d1) =>
    match hii with
    | None => (Success, d1)
    | Some r => let '(st, _, d2) := core_install env d1 (Some h) HII_PACKAGE_LIST r in (st, d2)
    end
  | (st, _, d1) => (st, d1)
  end.

Definition of_pstatus (r : pstatus) : out :=
  match r with Success => Returned 0 None | Failed e => Returned (code e) None | Panicked => Crashed | Hung => Stuck end.

(** image.rs:1070-1153: from the loaded PE image on. *)
Definition load_finish (s : ist) (a : load_args) (p : pe) (sec : option efi_error) : out * ist :=
  match core_install env (i_db s) None LOADED_IMAGE (pe_info p) with
  | (Success, Some h, d1) =>
    let s1 := set_dbg (set_db s d1) (dbg_new (i_dbg s) h) in
    match (if la_path a =? 0 then inr 0 else la_copy a) with
    | inl e => (Returned (code e) None, s1)
    | inr copy =>
      let s2 := if pe_kind p =? RUNTIME_DRIVER then set_rt s1 (rt_add (i_rt s1) h) else s1 in
      let '(st, d2) := load_installs (i_db s2) h copy (pe_hii p) in
      let s3 := set_db s2 d2 in
      match st with
      | Success =>
        (Loaded h (match sec with Some e => code e | None => 0 end),
         set_imgs s3 (om_set (i_imgs s3) h (new_image p (la_path a))))
      | _ => (of_pstatus st, s3)
      end
    end
  | (st, _, d1) => (of_pstatus st, set_db s d1)
  end.

(** image.rs:1170-1202 [load_image] with [core_load_image] (image.rs:993-1154).  A null buffer means the file is
    read; a buffer of size 0 is refused before (image.rs:1185-1187) and not modelled. *)
Definition do_load (s : ist) (a : load_args) : out * ist :=
  if negb (la_buffer a) && (la_path a =? 0) then (Returned (code InvalidParameter) None, s)
  else
    let '(v, s1) := db_call s (OValidate (la_parent a)) in
    match v with
    | OutUnit =>
      match db_call s1 (OGetInterface (la_parent a) LOADED_IMAGE) with
      | (OutIface _, s2) =>
        match (if la_buffer a then inr false else la_fetch a) with
        | inl e => (Returned (code e) None, s2)
        | inr from_fv =>
          match authenticate (i_db s2) from_fv (la_ans2 a) (la_ans1 a) with
          | (Ok sec, d3) =>
            let s3 := set_db s2 d3 in
            match la_fix a with
            | Some e => (Returned (code e) None, s3)
            | None =>
              match la_pe a with
              | inl e => (Returned (code e) None, s3)
              | inr p => load_finish s3 a p sec
              end
            end
          | (_, d3) => (Crashed, set_db s2 d3)
          end
        end
      | (_, s2) => (Returned (code InvalidParameter) None, s2)
      end
    | OutErr e => (Returned (code e) None, s1)
    | _ => (Crashed, s1)
    end.

(** ** The machine *)

(** What the running code can do: the four services; the dispatcher's direct start; return from the function it
    runs; write the unload field of a loaded image protocol; make a database call. *)
Inductive act :=
| ALoad (a : load_args)
| AStart (h : N) (mem : option efi_error)
| ADispatch (h : N) (mem : option efi_error)
| AUnload (h : N)
| AExit (h st : N) (data : N * N)
| AReturn (st : N)
| ASetUnload (h : N) (b : bool)
| ADb (o : pop).

Definition istep (s : ist) (stk : list frame) (a : act) : out * ist * list frame :=
  match a with
  | ALoad l => let '(o, s') := do_load s l in (o, s', stk)
  | AStart h mem => do_start s stk h true mem
  | ADispatch h mem => do_start s stk h false mem
  | AUnload h => do_unload s stk h false ByService
  | AExit h st data => do_exit s stk h st data
  | AReturn st =>
    match stk with
    | [] => (Returned st None, s, [])
    | FEntry id h prev svc :: below => entry_returned s below id h prev svc st
    | FUnload h k :: below => unload_returned s below h k st
    end
  | ASetUnload h b => (Returned 0 None, set_imgs s (om_upd (i_imgs s) h (set_unload b)), stk)
  | ADb o => let '(r, s') := db_call s o in
             (match r with OutPanic => Crashed | OutHang => Stuck | _ => Returned 0 None end, s', stk)
  end.
End Machine.

(** image.rs:493-575: the image services right after the core registered its own image, on the database [d] in
    which its loaded image protocol [info] was installed: the record of the core counts as started
    (image.rs:238-262). *)
Definition init_images (d : pstate) (info : N) (mem : list (N * N)) : ist :=
  MkSt d [(CORE_HANDLE, MkImage true false BOOT_DRIVER None info 0 None mem)] None [] [CORE_HANDLE] [] 0.
