(** When an address is enough. *)
From Verif Require Import Base.Prelude CPtr.Model.
Local Open Scope N_scope.

(** The address of a value of the type tells the value: some function gets it back. *)
Definition recoverable (t : ty) : Prop := exists d : N -> val, forall v, has_type t v -> d (as_ptr v) = v.
(** The type has a value whose address is null. *)
Definition nullable (t : ty) : Prop := exists v, has_type t v /\ as_ptr v = 0.
(** A value that owns what it points to: a box, or some box; not one not to be dropped. *)
Inductive owns : ty -> val -> Prop :=
| owns_box : forall n, owns Boxed (VPtr n)
| owns_some : forall t v, owns t v -> owns (Opt t) (VSome v).
