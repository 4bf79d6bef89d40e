(** A protocol database as the UEFI specification has it, as far as one interface is concerned. *)
From Verif Require Import Base.Prelude.
Local Open Scope N_scope.

Definition failed (s : N) : bool := 2 ^ 63 <=? s.
Definition INVALID_PARAMETER : N := 2 ^ 63 + 2.
Definition NOT_FOUND : N := 2 ^ 63 + 14.
(** Handles and the interfaces on them (of one protocol). *)
Definition database := list (N * N).
(** InstallProtocolInterface: the firmware may refuse, with [ans]; a null handle is replaced by a new one, [fresh], not null. *)
Definition db_install (ans fresh h i : N) (db : database) : N * N * database :=
  if failed ans then (ans, h, db) else let h := if h =? 0 then fresh else h in (ans, h, (h, i) :: db).
Fixpoint db_remove (h i : N) (db : database) : database := match db with [] => [] | (h', i') :: db => if (h' =? h) && (i' =? i) then db else (h', i') :: db_remove h i db end.
Definition db_has (h i : N) (db : database) : bool := existsb (fun e => (fst e =? h) && (snd e =? i)) db.
(** UninstallProtocolInterface: a null handle is invalid; what is not there is not found; the firmware may refuse (the interface is in use). *)
Definition db_uninstall (ans h i : N) (db : database) : N * database :=
  if h =? 0 then (INVALID_PARAMETER, db) else if negb (db_has h i db) then (NOT_FOUND, db) else if failed ans then (ans, db) else (ans, db_remove h i db).
(** How often an interface is in the database. *)
Fixpoint times (i : N) (db : database) : nat := match db with [] => 0 | e :: db => (if snd e =? i then 1 else 0) + times i db end.
