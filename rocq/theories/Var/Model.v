(** The wrappers of the variable services: sdk/patina/src/runtime_services.rs:112-413 and runtime_services/variable_services.rs:78-151.
    The firmware's own services are parameters.  Names are lists of 16-bit characters.  A null entry in the table of services is
    not modelled, nor is QueryVariableInfo, which only passes its results on. *)
From Verif Require Import Base.Prelude.
Local Open Scope N_scope.

Definition vlen (l : list N) : N := N.of_nat (length l).
(** name.contains(&0). *)
Definition has_nul (name : list N) : bool := existsb (N.eqb 0) name.
(** Vec::resize. *)
Definition resize (l : list N) (n : N) (x : N) : list N := firstn (N.to_nat n) l ++ repeat x (N.to_nat n - length l).
(** What a callee leaves in a buffer that it fills from the start. *)
Definition over (w l : list N) : list N := w ++ skipn (length w) l.

(** ** GetVariable *)

(** What the firmware's GetVariable does: status ([None]: no error), attributes and size as left behind, bytes written. *)
Record gret := GRet { g_status : option efi_error; g_attr : N; g_size : N; g_written : list N }.
(** Name, GUID, size; is the buffer null? *)
Definition fw_get := list N -> list N -> N -> bool -> gret.

(** variable_services.rs:11-28. *)
Inductive gstatus := GError (e : efi_error) | GTooSmall (size attr : N) | GSuccess (size attr : N).

(** runtime_services.rs:325-361; also the buffer as left behind. *)
Definition get_variable_unchecked (fw : fw_get) (name guid : list N) (data : option (list N)) : gstatus * list N :=
  let r := fw name guid (match data with Some d => vlen d | None => 0 end) (match data with Some _ => false | None => true end) in
  let d := match data with Some d => over (g_written r) d | None => [] end in
  match g_status r with
  | Some BufferTooSmall => (GTooSmall (g_size r) (g_attr r), d)
  | Some e => (GError e, d)
  | None => (GSuccess (g_size r) (g_attr r), d)
  end.

(** runtime_services.rs:138-195, with [conv] for [T::try_from]; the loop runs at most twice. *)
Definition get_variable {T} (dbg : bool) (conv : list N -> option T) (fw : fw_get) (name guid : list N) (size_hint : option N) : res efi_error (T * N) :=
  if negb (has_nul name) then debug_fail dbg (Err InvalidParameter)
  else
    let attempt (data : list N) := get_variable_unchecked fw name guid (match data with [] => None | _ => Some data end) in
    let success data attr := match conv data with Some d => Ok (d, attr) | None => Err InvalidParameter end in
    let data := match size_hint with Some n => resize [] n 0 | None => [] end in
    match attempt data with
    | (GSuccess _ attr, data) => success data attr
    | (GError e, _) => Err e
    | (GTooSmall size _, data) =>
        match attempt (resize data size 10) with
        | (GSuccess _ attr, data) => success data attr
        | (GError e, _) => Err e
        | (GTooSmall _ _, _) => Err BufferTooSmall
        end
    end.

(** runtime_services.rs:198-221. *)
Definition get_variable_size_and_attributes (dbg : bool) (fw : fw_get) (name guid : list N) : res efi_error (N * N) :=
  if negb (has_nul name) then debug_fail dbg (Err InvalidParameter)
  else
    match get_variable_unchecked fw name guid None with
    | (GTooSmall size attr, _) => Ok (size, attr)
    | (GError e, _) => Err e
    | (GSuccess size attr, _) => debug_fail dbg (Ok (size, attr))
    end.

(** ** SetVariable *)

(** runtime_services.rs:117-130 and 301-323: [fw] gives the firmware's status and its new state. *)
Definition set_variable {S} (dbg : bool) (fw : S -> list N -> list N -> N -> list N -> option efi_error * S) (st : S) (name guid : list N) (attr : N) (data : list N)
  : res efi_error unit * S :=
  if negb (has_nul name) then (debug_fail dbg (Err InvalidParameter), st)
  else match fw st name guid attr data with (Some e, st') => (Err e, st') | (None, st') => (Ok tt, st') end.

(** ** GetNextVariableName *)

(** What the firmware's GetNextVariableName does: status, size as left behind, characters written, GUID as left behind. *)
Record nret := NRet { n_status : option efi_error; n_size : N; n_written : list N; n_guid : list N }.
Definition fw_next := N -> list N -> list N -> nret.

(** runtime_services.rs:363-413: status, name and namespace as left behind; the size is the number of characters (383). *)
Definition get_next_variable_name_unchecked (fw : fw_next) (prev_name prev_ns next_name : list N) : res efi_error (option efi_error * list N * list N) :=
  let next_name := if (length next_name <? length prev_name)%nat then resize next_name (vlen prev_name) 0 else next_name in
  let next_name := over prev_name next_name in
  let r := fw (vlen next_name) next_name prev_ns in
  let name1 := over (n_written r) next_name in
  match n_status r with
  | Some BufferTooSmall =>
      if n_size r <=? vlen name1 then Panic
      else
        let next_name := over prev_name (resize name1 (n_size r) 0) in
        let r2 := fw (n_size r) next_name prev_ns in
        Ok (n_status r2, over (n_written r2) next_name, n_guid r2)
  | e => Ok (e, name1, n_guid r)
  end.

(** runtime_services.rs:231-249. *)
Definition get_next_variable_name (dbg : bool) (fw : fw_next) (prev_name prev_ns : list N) : res efi_error (list N * list N) :=
  match prev_name with
  | [] => debug_fail dbg (Err InvalidParameter)
  | _ =>
      match get_next_variable_name_unchecked fw prev_name prev_ns [] with
      | Ok (None, name, ns) => Ok (name, ns)
      | Ok (Some e, _, _) => Err e
      | Err e => Err e
      | Panic => Panic
      end
  end.

(** variable_services.rs:78-85: the identifiers as (name, namespace). *)
Record iter := Iter { i_current : list N * list N; i_next : list N * list N; i_finished : bool }.
(** variable_services.rs:89-116. *)
Definition new_from_first : iter := Iter ([0], repeat 0 16) ([], repeat 0 16) false.
Definition new_from_variable (name ns : list N) : iter := Iter (name, ns) ([], repeat 0 16) false.
(** variable_services.rs:123-146. *)
Definition advance (fw : fw_next) (it : iter) : res efi_error (option efi_error * iter) :=
  if i_finished it then Ok (None, it)
  else
    match get_next_variable_name_unchecked fw (fst (i_current it)) (snd (i_current it)) (fst (i_next it)) with
    | Ok (st, name, ns) =>
        match st with
        | Some NotFound => Ok (None, Iter (name, ns) (i_current it) true)
        | st => Ok (st, Iter (name, ns) (i_current it) false)
        end
    | Err e => Err e
    | Panic => Panic
    end.
(** variable_services.rs:148-150. *)
Definition get_item (it : iter) : option (list N * list N) := if i_finished it then None else Some (i_current it).
