(** What a user of the protocol services can say from the calls made so far and their results alone.
    A history lists the calls with their results, MOST RECENT FIRST.  Nothing here looks at the database. *)
From Coq Require Import Sorted.
From Verif Require Import Base.Prelude Protocol.Model.
Local Open Scope N_scope.

(** [hist tr d]: the history [tr], started on an empty database, leads to the database [d]. *)
Inductive hist : list pcall -> pdb -> Prop :=
| hist_new seed fuel : hist [] (pdb_new seed fuel)
| hist_call tr d o r d' : hist tr d -> pstep d o = (r, d') -> hist ((o, r) :: tr) d'.

(** The interface of the most recent successful install of [g] on [h] that was not uninstalled since. *)
Fixpoint installed (tr : list pcall) (h g : N) : option N :=
  match tr with
  | [] => None
  | c :: past =>
    match c with
    | (OInstall _ g' i, OutHandle h' _) => if (h =? h') && (g =? g') then Some i else installed past h g
    | (OUninstall h' g' _, OutUnit) => if (h =? h') && (g =? g') then None else installed past h g
    | _ => installed past h g
    end
  end.

(** A handle is live while some protocol is installed on it. *)
Definition live (tr : list pcall) (h : N) : Prop := exists g i, installed tr h g = Some i.

(** The moment [h] was last created (handed out by an install without a handle): the number of calls before. *)
Fixpoint created (tr : list pcall) (h : N) : option nat :=
  match tr with
  | [] => None
  | c :: past =>
    match c with
    | (OInstall None _ _, OutHandle h' _) => if h =? h' then Some (length past) else created past h
    | _ => created past h
    end
  end.
Definition created_before (tr : list pcall) (a b : N) : Prop :=
  match created tr a, created tr b with Some x, Some y => (x < y)%nat | _, _ => False end.

(** How many successful opens of [g] on [h] by exactly this agent, controller and attributes have not been closed;
    a new installation starts with none. *)
Fixpoint opens (tr : list pcall) (h g agent : N) (ctrl : option N) (attr : N) : N :=
  match tr with
  | [] => 0
  | c :: past =>
    let before := opens past h g agent ctrl attr in
    match c with
    | (OOpen h' g' (Some a') c' attr', OutUnit) =>
        if (h =? h') && (g =? g') && (agent =? a') && oeqb ctrl c' && (attr =? attr') then before + 1 else before
    | (OClose h' g' (Some a') c' attr', OutUnit) =>
        if (h =? h') && (g =? g') && (agent =? a') && oeqb ctrl c' &&
           match attr' with None => true | Some x => attr =? x end then 0 else before
    | (OInstall _ g' _, OutHandle h' _) => if (h =? h') && (g =? g') then 0 else before
    | (OUninstall h' g' _, OutUnit) => if (h =? h') && (g =? g') then 0 else before
    | _ => before
    end
  end.
Definition held (tr : list pcall) (h g agent : N) (ctrl : option N) (attr : N) : Prop :=
  opens tr h g agent ctrl attr <> 0.

(** Attributes that claim a protocol instance: BY_DRIVER (0x10), EXCLUSIVE (0x20) or both. *)
Definition claims (attr : N) : Prop := attr = 0x10 \/ attr = 0x20 \/ attr = 0x30.

(** The protocol and event of a registration key, until its event is unregistered. *)
Fixpoint registration (tr : list pcall) (r : N) : option (N * N) :=
  match tr with
  | [] => None
  | c :: past =>
    match c with
    | (ORegister g ev, OutReg r') => if r =? r' then Some (g, ev) else registration past r
    | (OUnregister evs, _) =>
        match registration past r with
        | Some (g, ev) => if existsb (N.eqb ev) evs then None else Some (g, ev)
        | None => None
        end
    | _ => registration past r
    end
  end.

(** Installations of the registered protocol not yet handed out for the key. *)
Fixpoint waiting (tr : list pcall) (r h : N) : bool :=
  match tr with
  | [] => false
  | c :: past =>
    match c with
    | (OInstall _ g _, OutHandle h' _) =>
        ((h =? h') && match registration past r with Some (g', _) => g =? g' | None => false end) || waiting past r h
    | (ONext r', OutNext (Some h')) => if (r =? r') && (h =? h') then false else waiting past r h
    | (OUnregister _, _) => match registration tr r with Some _ => waiting past r h | None => false end
    | _ => waiting past r h
    end
  end.

(** The open count an open report [l] shows for one agent, controller and attributes. *)
Definition reported (l : list usage) (agent : N) (ctrl : option N) (attr : N) : N :=
  fold_right (fun u n => if oeqb (u_agent u) (Some agent) && oeqb (u_ctrl u) ctrl && (u_attr u =? attr)
                         then u_count u + n else n) 0 l.

(** Which attributes and controllers OpenProtocol accepts from an agent (UEFI 7.3.9). *)
Definition open_args (h : N) (ctrl : option N) (attr : N) : Prop :=
  attr = 0x1 \/ attr = 0x2 \/ attr = 0x4 \/ attr = 0x20 \/
  ((attr = 0x10 \/ attr = 0x30) /\ ctrl <> None) \/ (attr = 0x8 /\ ctrl <> None /\ ctrl <> Some h).

(** An optional handle argument is acceptable when absent or live. *)
Definition olive (tr : list pcall) (h : option N) : Prop :=
  match h with Some h => live tr h | None => True end.
