(** What the variable services are about: a firmware's store of variables, and the services on it as the UEFI specification describes them
    (section 8.2).  Sizes are in bytes, and a character takes two. *)
From Verif Require Import Base.Prelude Var.Model.
Local Open Scope N_scope.

(** A variable; its name is without the terminating null. *)
Record var := Var { v_name : list N; v_guid : list N; v_attr : N; v_data : list N }.
Definition store := list var.

(** Names are not empty and hold no null; the pairs of name and GUID are distinct; a variable without data does not exist. *)
Definition store_ok (s : store) : Prop :=
  NoDup (map (fun v => (v_name v, v_guid v)) s)
  /\ forall v, In v s -> v_name v <> [] /\ ~ In 0 (v_name v) /\ v_data v <> [].

(** The string at the start of a buffer. *)
Fixpoint cstr (b : list N) : list N :=
  match b with [] => [] | c :: r => if c =? 0 then [] else c :: cstr r end.

Fixpoint list_same (a b : list N) : bool :=
  match a, b with
  | [], [] => true
  | x :: a, y :: b => (x =? y) && list_same a b
  | _, _ => false
  end.
Definition is_var (name guid : list N) (v : var) : bool := list_same (v_name v) name && list_same (v_guid v) guid.

(** GetVariable. *)
Definition uefi_get (s : store) : fw_get := fun name guid size null =>
  match find (is_var (cstr name) guid) s with
  | None => GRet (Some NotFound) 0 size []
  | Some v =>
      let n := N.of_nat (length (v_data v)) in
      if size <? n then GRet (Some BufferTooSmall) (v_attr v) n []
      else if null then GRet (Some InvalidParameter) 0 size []
      else GRet None (v_attr v) n (v_data v)
  end.

(** SetVariable: no data deletes. *)
Definition uefi_set (s : store) (name guid : list N) (attr : N) (data : list N) : option efi_error * store :=
  let others := filter (fun v => negb (is_var (cstr name) guid v)) s in
  match cstr name with
  | [] => (Some InvalidParameter, s)
  | _ =>
      match data with
      | [] => if existsb (is_var (cstr name) guid) s then (None, others) else (Some NotFound, s)
      | _ => (None, others ++ [Var (cstr name) guid attr data])
      end
  end.

(** The variables after a given one. *)
Fixpoint after (name guid : list N) (s : store) : option store :=
  match s with
  | [] => None
  | v :: r => if is_var name guid v then Some r else after name guid r
  end.

(** GetNextVariableName.  [strict]: the firmware refuses a name that does not end within the size it is told, as the specification has it. *)
Definition uefi_next (strict : bool) (s : store) : fw_next := fun size buf guid =>
  if strict && negb (existsb (N.eqb 0) (firstn (N.to_nat (size / 2)) buf)) then NRet (Some InvalidParameter) size [] guid
  else
    match (match cstr buf with [] => Some s | name => after name guid s end) with
    | None => NRet (Some InvalidParameter) size [] guid
    | Some [] => NRet (Some NotFound) size [] guid
    | Some (v :: _) =>
        let need := 2 * (N.of_nat (length (v_name v)) + 1) in
        if size <? need then NRet (Some BufferTooSmall) need [] guid
        else NRet None need (v_name v ++ [0]) (v_guid v)
    end.

(** A user's walk: advance, and note the name and GUID found, until the end or an error. *)
Fixpoint walk (fw : fw_next) (fuel : nat) (it : iter) : res efi_error (list (list N * list N)) :=
  match fuel with
  | O => Err Aborted
  | S fuel =>
      match advance fw it with
      | Ok (Some e, _) => Err e
      | Ok (None, it') =>
          match get_item it' with
          | None => Ok []
          | Some (name, guid) =>
              match walk fw fuel it' with Ok l => Ok ((cstr name, guid) :: l) | r => r end
          end
      | Err e => Err e
      | Panic => Panic
      end
  end.
