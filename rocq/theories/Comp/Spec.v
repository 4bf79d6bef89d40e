(** What the component system promises, without indices, cells or bookkeeping. *)
From Verif Require Import Base.Prelude Comp.Model.
Local Open Scope N_scope.

(** ** The storage seen from outside: what is stored under each type. *)
Record view := MkView {
  v_config : N -> option (bool * N);   (* locked? and value *)
  v_service : N -> option N;
  v_hob : N -> list N }.

(** The public getters answer according to the view (and no downcast fails). *)
Definition shows (s : storage) (v : view) : Prop :=
  forall ty, get_config s ty = Ok (v_config v ty) /\ get_service s ty = Ok (v_service v ty) /\ get_hob s ty = Ok (v_hob v ty).

Definition at_type {A} (f : N -> A) (ty : N) (x : A) : N -> A := fun t => if t =? ty then x else f t.
Definition empty_view : view := MkView (fun _ => None) (fun _ => None) (fun _ => []).
Definition put_config (v : view) (ty : N) (x : bool * N) : view := MkView (at_type (v_config v) ty (Some x)) (v_service v) (v_hob v).
Definition put_service (v : view) (ty x : N) : view := MkView (v_config v) (at_type (v_service v) ty (Some x)) (v_hob v).
Definition put_hob (v : view) (ty x : N) : view := MkView (v_config v) (v_service v) (at_type (v_hob v) ty (v_hob v ty ++ [x])).
Definition lock_view (v : view) : view :=
  MkView (fun t => option_map (fun x => (true, snd x)) (v_config v t)) (v_service v) (v_hob v).

(** ** Parameters *)

(** The simple parameters inside a parameter. *)
Fixpoint leaves (p : param) : list param :=
  match p with POption q => leaves q | PPair q r => leaves q ++ leaves r | _ => [p] end.
Definition all_leaves (ps : list param) : list param := flat_map leaves ps.

(** No tuple used as a parameter. *)
Fixpoint flat (p : param) : Prop :=
  match p with PPair _ _ => False | POption q => flat q | _ => True end.

(** Two parameters of one component that must not be held together: one may write a configuration the other one
    reads or writes, or both queue commands. *)
Definition conflict (p q : param) : Prop :=
  match p, q with
  | PConfigMut a, PConfig b | PConfig a, PConfigMut b | PConfigMut a, PConfigMut b => a = b
  | PStorageMut, PConfig _ | PStorageMut, PConfigMut _ | PStorageMut, PStorage | PStorageMut, PStorageMut => True
  | PConfig _, PStorageMut | PConfigMut _, PStorageMut | PStorage, PStorageMut => True
  | PStorage, PConfigMut _ | PConfigMut _, PStorage => True
  | PCommands, PCommands => True
  | _, _ => False
  end.
Definition compatible (ps : list param) : Prop := ForallOrdPairs (fun p q => ~ conflict p q) (all_leaves ps).

(** A parameter is available. *)
Fixpoint ready (s : storage) (v : view) (p : param) : Prop :=
  match p with
  | PConfig ty => exists x, v_config v ty = Some (true, x)
  | PConfigMut ty => exists x, v_config v ty = Some (false, x)
  | PService ty => v_service v ty <> None
  | PHob ty => v_hob v ty <> []
  | PBoot => s_boot s = true
  | PRuntime => s_runtime s = true
  | PCommands | PStorage | PStorageMut | POption _ => True
  | PPair q r => ready s v q /\ ready s v r
  end.

(** What an available parameter hands over. *)
Fixpoint given (s : storage) (v : view) (p : param) (g : grant) : Prop :=
  match p with
  | PConfig ty => exists x, v_config v ty = Some (true, x) /\ g = GConfig ty x
  | PConfigMut ty => exists x, v_config v ty = Some (false, x) /\ g = GConfigMut ty x
  | PService ty => exists x, v_service v ty = Some x /\ g = GService ty x
  | PHob ty => v_hob v ty <> [] /\ g = GHob ty (v_hob v ty)
  | PBoot => s_boot s = true /\ g = GBoot
  | PRuntime => s_runtime s = true /\ g = GRuntime
  | PCommands => g = GCommands
  | PStorage => g = GStorage
  | PStorageMut => g = GStorageMut
  | POption q => (ready s v q /\ exists h, given s v q h /\ g = GSome h) \/ (~ ready s v q /\ g = GNone)
  | PPair q r => exists a b, given s v q a /\ given s v r b /\ g = GPair a b
  end.

(** ** Storage histories *)
Section Spec.
Variables (default : N -> N) (hob_guid : N -> N) (hob_parse : N -> N -> N).

(** Initialising a parameter: a configuration that is not there gets its default; ConfigMut unlocks. *)
Definition init_leaf (v : view) (p : param) : view :=
  match p with
  | PConfig ty => match v_config v ty with Some _ => v | None => put_config v ty (true, default ty) end
  | PConfigMut ty => match v_config v ty with Some (_, x) => put_config v ty (false, x) | None => put_config v ty (false, default ty) end
  | _ => v
  end.
Definition init_view (v : view) (ps : list param) : view := fold_left init_leaf (all_leaves ps) v.

(** What the builder and the start of the core do to the storage before the dispatch. *)
Definition build_view (v : view) (b : build) : view :=
  match b with
  | BComponent c | BFirst c => init_view v (c_params c)
  | BConfig ty x => put_config v ty (true, x)
  | BService ty x => put_service v ty x
  end.
Definition built (bs : list build) : view := fold_left build_view bs empty_view.

Definition comp_of (b : build) : list comp := match b with BComponent c | BFirst c => [c] | _ => [] end.
Definition comps_of (bs : list build) : list comp := flat_map comp_of bs.

(** The HOBs a type receives: the data of every guided HOB with its GUID, parsed, in order. *)
Definition hobs_for (ty : N) (hobs : list (N * N)) : list N :=
  map (fun h => hob_parse ty (snd h)) (filter (fun h => fst h =? hob_guid ty) hobs).
Definition wants_hob (bs : list build) (ty : N) : Prop :=
  exists c, In c (comps_of bs) /\ In (PHob ty) (all_leaves (c_params c)).

(** A queued command. *)
Definition cmd_view (v : view) (c : cmd) : view :=
  match c with CmdConfig ty x => put_config v ty (true, x) | CmdService ty x => put_service v ty x end.
End Spec.

(** The components given to the core are new: not initialised, with their input. *)
Definition fresh (c : comp) : Prop := c_state c = None /\ c_input c = true.

(** What a component holds, directly or inside an optional or tuple parameter. *)
Fixpoint holds (k g : grant) : Prop :=
  g = k \/ match g with GSome h => holds k h | GPair a b => holds k a \/ holds k b | _ => False end.
(** The component published a service: through Commands, or directly in the storage. *)
Definition published (e : run_entry) (ty : N) : Prop :=
  exists x,
    (Exists (holds GCommands) (r_grants e) /\ In (ECommand (CmdService ty x)) (r_effects e))
    \/ (Exists (holds GStorageMut) (r_grants e) /\ In (EAddService ty x) (r_effects e)).

(** ** What the storage holds over a run *)

(** What a component may do with what it holds. *)
Definition allowed (gs : list grant) (e : effect) : Prop :=
  match e with
  | EWrite ty _ | ELock ty => exists x, Exists (holds (GConfigMut ty x)) gs
  | ECommand _ => Exists (holds GCommands) gs
  | EAddConfig _ _ | EAddService _ _ | ELockAll | ESetConfig _ _ | ELockConfig _ => Exists (holds GStorageMut) gs
  end.
Definition lawful (c : comp) : Prop := forall s gs e, In e (snd (c_body c s gs)) -> allowed gs e.

(** What an effect does to what is stored and to the commands that are queued. *)
Definition effect_view (x : view * list cmd) (e : effect) : view * list cmd :=
  let '(v, q) := x in
  match e with
  | EWrite ty y | ESetConfig ty y => (match v_config v ty with Some (l, _) => put_config v ty (l, y) | None => v end, q)
  | ELock ty | ELockConfig ty => (match v_config v ty with Some (_, y) => put_config v ty (true, y) | None => v end, q)
  | ECommand c => (v, q ++ [c])
  | EAddConfig ty y => (put_config v ty (true, y), q)
  | EAddService ty y => (put_service v ty y, q)
  | ELockAll => (lock_view v, q)
  end.

(** A dispatch explained: queued commands are carried out in order before the next component runs, each component
    finds what is stored, and what it does is what changes. *)
Inductive replay : view * list cmd -> list run_entry -> view * list cmd -> Prop :=
| rp_end x : replay x [] x
| rp_flush v q log y : replay (fold_left cmd_view q v, []) log y -> replay (v, q) log y
| rp_run v e log y : shows (r_store e) v -> replay (fold_left effect_view (r_effects e) (v, [])) log y -> replay (v, []) (e :: log) y.
