(** What a caller of InstallConfigurationTable relies on.  Histories are lists of (guid, pointer) calls,
    oldest first; pointer 0 asks for deletion. *)
From Coq Require Import NArith List.
Import ListNotations.
Local Open Scope N_scope.

Definition history := list (N * N).

(** The pointer most recently installed for [g], unless deleted since. *)
Definition current (h : history) (g : N) : option N :=
  match find (fun c => fst c =? g) (rev h) with
  | Some (_, 0) => None
  | Some (_, p) => Some p
  | None => None
  end.

(** A published array is right for a history: one entry per installed GUID and no other. *)
Definition table_of (h : history) (arr : list (N * N)) : Prop :=
  NoDup (map fst arr) /\ forall g p, In (g, p) arr <-> current h g = Some p.
