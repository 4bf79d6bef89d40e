(** What is expected of merged intervals. *)
From Verif Require Import Base.Prelude Ser.Model.
Local Open Scope N_scope.

(** An address in one of the intervals. *)
Definition covered (l : list iv) (x : N) : Prop := exists i, In i l /\ i_base i <= x /\ x < i_base i + i_len i.
(** Each interval ends in the address space. *)
Definition fits (i : iv) : Prop := i_base i + i_len i < 2 ^ 64.
(** In order, with a gap between any two. *)
Inductive separated : list iv -> Prop :=
| sep_nil : separated []
| sep_cons : forall a l, Forall (fun b => i_base a + i_len a < i_base b) l -> separated l -> separated (a :: l).
