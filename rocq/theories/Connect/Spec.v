(** What ConnectController and DisconnectController owe the drivers, in terms of the history of database calls
    (Protocol.Spec: [installed], [live], [opens]) and of the driver calls that were made. *)
From Coq Require Import Sorted Permutation.
From Verif Require Import Base.Prelude Protocol.Model Protocol.Spec Protocol.Services Connect.Model.
Local Open Scope N_scope.

(** The history of the database calls made up to a state. *)
Definition past (s : cst) : list pcall := fst (c_ps s).
(** The state was reached by database calls from an empty database. *)
Definition reached (s : cst) : Prop := hist (fst (c_ps s)) (snd (c_ps s)).

(** ** The calls of Supported and Start *)

(** The driver calls of one pass over the candidates: every candidate is asked once, in order, and started at once
    if and only if it says yes.  [yes] are those that did. *)
Inductive pass_of (c dp : N) : list N -> list N -> list cev -> Prop :=
| pass_nil : pass_of c dp [] [] []
| pass_no b t yes evs : pass_of c dp t yes evs -> pass_of c dp (b :: t) yes (ESupported b c dp false :: evs)
| pass_yes b ok t yes evs : pass_of c dp t yes evs ->
    pass_of c dp (b :: t) (b :: yes) (ESupported b c dp true :: EStart b c dp ok :: evs).

(** The driver calls of a connect: passes over the candidates not started yet, until one in which all say no. *)
Inductive asks (c dp : N) : list N -> list cev -> Prop :=
| asks_end l evs : pass_of c dp l [] evs -> asks c dp l evs
| asks_more l yes evs l' evs' : pass_of c dp l yes evs -> yes <> [] ->
    (forall b, In b yes -> ~ In b l') -> (forall b, In b l -> In b yes \/ In b l') ->
    (exists f, l' = filter f l) ->
    asks c dp l' evs' -> asks c dp l (evs ++ evs').

Definition asked (e : cev) : list N := match e with ESupported b _ _ _ => [b] | _ => [] end.
Definition started (e : cev) : list N := match e with EStart b _ _ _ => [b] | _ => [] end.
Definition start_ok (e : cev) : Prop := match e with EStart _ _ _ ok => ok = true | _ => False end.
(** Calls of driver binding functions. *)
Definition driver_call (e : cev) : Prop :=
  match e with ESupported _ _ _ _ | EStart _ _ _ _ | EStop _ _ _ _ => True | _ => False end.

(** ** The candidates *)

(** The driver bindings on a list of handles; handles without one are skipped. *)
Definition binds (tr : list pcall) (hs : list N) : list N :=
  flat_map (fun h => match installed tr h DRIVER_BINDING with Some i => [i] | None => [] end) hs.

(** Sources in priority order: a binding offered by an earlier source is not taken from a later one. *)
Fixpoint by_priority (earlier : list N) (sources : list (list N)) : list N :=
  match sources with
  | [] => []
  | l :: t => filter (fun b => if in_dec N.eq_dec b earlier then false else true) l ++ by_priority (earlier ++ l) t
  end.

(** [all] lists the handles that carry a driver binding, oldest first. *)
Definition binding_handles (tr : list pcall) (all : list N) : Prop :=
  NoDup all /\ (forall h, In h all <-> installed tr h DRIVER_BINDING <> None) /\ StronglySorted (created_before tr) all.

(** Source 2: the answers [ans] of a platform override protocol, ending with the first refusal. *)
Definition platform_source (tr : list pcall) (c : N) (evs : list cev) (l : list N) : Prop :=
  ((forall h, installed tr h PLATFORM_OVERRIDE = None) /\ evs = [] /\ l = []) \/
  (exists h p ans, installed tr h PLATFORM_OVERRIDE = Some p /\
     evs = map (fun a => EPlatform p c (Some a)) ans ++ [EPlatform p c None] /\ l = binds tr ans).

(** Source 4: the same for the bus specific override protocol of the controller. *)
Definition bus_source (tr : list pcall) (c : N) (evs : list cev) (l : list N) : Prop :=
  (installed tr c BUS_OVERRIDE = None /\ evs = [] /\ l = []) \/
  (exists p ans, installed tr c BUS_OVERRIDE = Some p /\
     evs = map (fun a => EBus p c (Some a)) ans ++ [EBus p c None] /\ l = binds tr ans).

(** Source 3: every handle with a driver binding and a family override protocol is asked for its version, oldest
    first ([fam]: handle, protocol, version); the highest version comes first, and of several handles with the same
    version only the youngest counts. *)
Definition family_source (tr : list pcall) (evs : list cev) (l : list N) : Prop :=
  exists all fam ranked,
    binding_handles tr all /\
    map (fun x => fst (fst x)) fam = filter (fun h => match installed tr h FAMILY_OVERRIDE with Some _ => true | None => false end) all /\
    (forall h p v, In (h, p, v) fam -> installed tr h FAMILY_OVERRIDE = Some p) /\
    evs = map (fun x => EFamily (snd (fst x)) (snd x)) fam /\
    StronglySorted (fun a b => fst b < fst a) ranked /\
    (forall v h, In (v, h) ranked <-> exists before p after,
       fam = before ++ (h, p, v) :: after /\ forall h' p', ~ In (h', p', v) after) /\
    l = binds tr (map snd ranked).

(** Source 5: all driver bindings, highest version first. *)
Definition search_source (version : N -> N) (tr : list pcall) (l : list N) : Prop :=
  exists all, binding_handles tr all /\ Permutation l (binds tr all) /\
              StronglySorted (fun a b => version b <= version a) l.

(** The override protocols make no database calls while they are asked. *)
Definition quiet_overrides (env : cenv) : Prop :=
  (forall s p c prev, snd (ce_platform env s p c prev) = []) /\ (forall s p, snd (ce_family env s p) = []) /\
  (forall s p prev, snd (ce_bus env s p prev) = []).

(** What [sort_unstable_by] promises. *)
Definition sorts (env : cenv) : Prop := forall key l,
  Permutation (ce_sort env key l) l /\ StronglySorted (fun a b => key b <= key a) (ce_sort env key l).

(** ** Managing *)

(** The driver image [drv] has the controller open BY_DRIVER (0x10, or 0x30 with EXCLUSIVE). *)
Definition manages (tr : list pcall) (drv c : N) : Prop :=
  exists g ctrl attr, (attr = 0x10 \/ attr = 0x30) /\ held tr c g drv ctrl attr.

(** [k] is a child controller [drv] created on [c] (it holds [c] open BY_CHILD_CONTROLLER, 0x8). *)
Definition child_of_driver (tr : list pcall) (drv c k : N) : Prop := exists g, held tr c g drv (Some k) 0x8.

(** [k] is a child of [c]. *)
Definition child_controller (tr : list pcall) (c k : N) : Prop := exists drv, child_of_driver tr drv c k.

(** ** Disconnecting *)

(** The calls of one driver's Stop when its turn comes, the history being [t], and whether it counts as
    disconnected.  [targets] are the children it is told to stop.  It is told to leave the controller itself when
    those were stopped and either no child was named or it has no other children. *)
Inductive stopped (c : N) (child : option N) (t : list pcall) (drv : N) : list cev -> bool -> Prop :=
| stopped_gone : ~ manages t drv c -> stopped c child t drv [] false
| stopped_now b kids targets e1 ok1 evs counted :
    manages t drv c -> installed t drv DRIVER_BINDING = Some b ->
    NoDup kids -> (forall k, In k kids <-> child_of_driver t drv c k) ->
    targets = match child with None => kids | Some h => if in_dec N.eq_dec h kids then [h] else [] end ->
    (targets = [] /\ e1 = [] /\ ok1 = true \/ targets <> [] /\ e1 = [EStop b c targets ok1]) ->
    (if ok1
     then (child = None \/ (forall k, In k kids -> In k targets)) /\ evs = e1 ++ [EStop b c [] counted] \/
          ~ (child = None \/ (forall k, In k kids -> In k targets)) /\ evs = e1 /\ counted = true
     else evs = e1 /\ counted = false) ->
    stopped c child t drv evs counted.

(** The turns of a list of drivers, one after the other, from history [t] to [t']: what was called, and which
    drivers count.  Between and during the calls the history only grows. *)
Inductive turns (c : N) (child : option N) : list pcall -> list N -> list cev -> list bool -> list pcall -> Prop :=
| turns_nil t : turns c child t [] [] [] t
| turns_cons t drv evs b new drvs evs' bs t' :
    stopped c child t drv evs b -> turns c child (new ++ t) drvs evs' bs t' ->
    turns c child t (drv :: drvs) (evs ++ evs') (b :: bs) t'.
