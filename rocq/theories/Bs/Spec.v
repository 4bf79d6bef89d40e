(** What a driver expects of the boot services wrappers. *)
From Verif Require Import Base.Prelude Bs.Model.
From Coq Require Import Permutation.
Local Open Scope N_scope.

(** A firmware that keeps to the UEFI specification: GetMemoryMap with [k] descriptors of [ds] bytes. *)
Definition uefi_map (k ds key ver : N) (size : N) : gmm :=
  if size <? k * ds then Gmm BUFFER_TOO_SMALL (k * ds) key ds ver else Gmm 0 (k * ds) key ds ver.
(** LocateHandle with [k] handles found. *)
Definition uefi_handles (k : N) (size : N) : N * N :=
  if k =? 0 then (NOT_FOUND, size) else if size <? 8 * k then (BUFFER_TOO_SMALL, 8 * k) else (0, 8 * k).
(** What the firmware reads as a list that ends with null. *)
Fixpoint until_null (l : list N) : list N := match l with [] => [] | h :: l => if h =? 0 then [] else h :: until_null l end.

(** The size of a descriptor as the SDK's type has it. *)
Definition DESCRIPTOR : N := 40.

(** Every value is in one place. *)
Definition accounted (l : ledger) (all : list N) : Prop := Permutation (held l ++ installed l ++ destroyed l) all.
Inductive iop := Install (p : N) (ok : bool) | Uninstall (p : N) (ok : bool).
(** Only what is held can be installed. *)
Fixpoint run_i (l : ledger) (ops : list iop) : option ledger :=
  match ops with
  | [] => Some l
  | Install p ok :: ops => if existsb (N.eqb p) (held l) then run_i (install l false p ok) ops else None
  | Uninstall p ok :: ops => run_i (uninstall l p ok) ops
  end.
