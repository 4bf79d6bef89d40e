(** What a user of the image services can say about a run: the calls made, what they led to, which images are
    loaded and whose code is on the call stack. *)
From Verif Require Import Base.Prelude Base.Omap Protocol.Model Protocol.Spec Protocol.Services Image.Model.
Local Open Scope N_scope.

(** The machine does not go on after these. *)
Definition fatal (o : out) : Prop := o = Crashed \/ o = Wild \/ o = Stuck.

(** [runs … tr s stk]: started on the database [d0], in which the core's loaded image protocol [info] is installed,
    the calls and outcomes [tr] (MOST RECENT FIRST) lead to the state [s] with the running code [stk] (the code that
    makes the next call first). *)
Inductive runs (fuel : nat) (env : penv) (d0 : pstate) (info : N) (mem : list (N * N))
  : list (act * out) -> ist -> list frame -> Prop :=
| runs_boot : hist (fst d0) (snd d0) -> installed (fst d0) CORE_HANDLE LOADED_IMAGE = Some info ->
    runs fuel env d0 info mem [] (init_images d0 info mem) []
| runs_step tr s stk a o s' stk' :
    runs fuel env d0 info mem tr s stk -> istep fuel env s stk a = (o, s', stk') -> ~ fatal o ->
    runs fuel env d0 info mem ((a, o) :: tr) s' stk'.

Definition loaded (s : ist) (h : N) : Prop := om_get (i_imgs s) h <> None.

(** The images whose entry point is on the call stack, innermost first. *)
Fixpoint entries (stk : list frame) : list N :=
  match stk with
  | [] => []
  | FEntry _ h _ _ :: t => h :: entries t
  | FUnload _ _ :: t => entries t
  end.
(** Code of the image is on the call stack: its entry point or its unload function. *)
Definition busy (stk : list frame) (h : N) : Prop :=
  In h (entries stk) \/ exists k, In (FUnload h k) stk.

(** How often the entry point of [h] was called since [h] was last loaded. *)
Fixpoint entered (tr : list (act * out)) (h : N) : nat :=
  match tr with
  | [] => 0
  | (_, Entered h') :: t => if h =? h' then S (entered t h) else entered t h
  | (_, Loaded h' _) :: t => if h =? h' then 0%nat else entered t h
  | _ :: t => entered t h
  end.

(** A caller is polite when it neither starts nor unloads an image while code of that image is on the call stack;
    and the protocol database does not hand out the handle of such an image to a new one. *)
Definition polite (stk : list frame) (a : act) (o : out) : Prop :=
  match a with
  | AStart h _ | AUnload h => ~ busy stk h
  | ALoad _ => forall h st, o = Loaded h st -> ~ busy stk h
  | _ => True
  end.

(** Runs in which every call was polite. *)
Inductive polite_runs (fuel : nat) (env : penv) (d0 : pstate) (info : N) (mem : list (N * N))
  : list (act * out) -> ist -> list frame -> Prop :=
| polite_boot : hist (fst d0) (snd d0) -> installed (fst d0) CORE_HANDLE LOADED_IMAGE = Some info ->
    polite_runs fuel env d0 info mem [] (init_images d0 info mem) []
| polite_step tr s stk a o s' stk' :
    polite_runs fuel env d0 info mem tr s stk -> polite stk a o ->
    istep fuel env s stk a = (o, s', stk') -> ~ fatal o ->
    polite_runs fuel env d0 info mem ((a, o) :: tr) s' stk'.

(** Nothing but the history of database calls differs, and the protocols and opens are as before. *)
Definition same_images (s s' : ist) : Prop :=
  i_imgs s' = i_imgs s /\ i_cur s' = i_cur s /\ i_ctx s' = i_ctx s /\ i_dbg s' = i_dbg s /\ i_rt s' = i_rt s /\
  (forall h g, installed (fst (i_db s')) h g = installed (fst (i_db s)) h g) /\
  (forall h g a c attr, opens (fst (i_db s')) h g a c attr = opens (fst (i_db s)) h g a c attr).

(** The exit data StartImage hands to its caller: what Exit was given, when neither size nor address is 0. *)
Definition exit_data (data : N * N) : option (N * N) :=
  if negb (fst data =? 0) && negb (snd data =? 0) then Some data else None.

(** How StartImage of [h], called by the code [below], ends once the image is done with the status [st] and the exit
    data [d]: it returns both to its caller, and the image stays loaded exactly when it is a driver that succeeded.
    When the image set an unload function, that function runs first; [ByStart st d] is what StartImage returns
    after it. *)
Definition start_ends (im : image) (h st : N) (d : option (N * N)) (below : list frame)
  (o : out) (s' : ist) (stk' : list frame) : Prop :=
  (st = 0 /\ im_kind im <> APPLICATION /\ o = Returned st d /\ stk' = below /\ loaded s' h) \/
  ((st <> 0 \/ im_kind im = APPLICATION) /\ im_unload im = false /\ o = Returned st d /\ stk' = below /\ ~ loaded s' h) \/
  ((st <> 0 \/ im_kind im = APPLICATION) /\ im_unload im = true /\ o = Unloading h /\
     stk' = FUnload h (ByStart st d) :: below /\ loaded s' h).

(** The protocol found first (on the smallest handle) can be used: its interface is not null. *)
Definition usable (tr : list pcall) (g : N) : Prop :=
  exists h i, installed tr h g = Some i /\ i <> 0 /\ forall h' i', installed tr h' g = Some i' -> h <= h'.

(** What the platform's security protocols say about an image ([None]: nothing against it), given the answers
    [a2] of the Security2 protocol and [a1] of the Security protocol: Security2 decides; an image it accepts that
    comes from a firmware volume is also shown to Security; without Security2, Security decides. *)
Definition verdict (tr : list pcall) (from_fv : bool) (a2 a1 v : option efi_error) : Prop :=
  (~ usable tr SECURITY2 /\ ~ usable tr SECURITY /\ v = None) \/
  (usable tr SECURITY2 /\ a2 <> None /\ v = a2) \/
  (usable tr SECURITY2 /\ a2 = None /\ from_fv = false /\ v = None) \/
  (usable tr SECURITY /\ usable tr SECURITY2 /\ a2 = None /\ from_fv = true /\ v = a1) \/
  (~ usable tr SECURITY2 /\ usable tr SECURITY /\ v = a1).
