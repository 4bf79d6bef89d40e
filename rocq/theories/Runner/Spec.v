(** Which tests are meant, and when one has gone as expected. *)
From Verif Require Import Base.Prelude Runner.Model.
Local Open Scope N_scope.

(** A test is selected if it is not marked to be skipped and, if there are filters, one occurs in its name. *)
Definition selected {S} (filters : list text) (t : test_case S) : Prop :=
  skip t = false /\ (filters = [] \/ exists f pre post, In f filters /\ name t = pre ++ f ++ post).
(** As expected: it passed, and should; or it failed, should, and with the message expected if one is. *)
Definition as_expected {S} (t : test_case S) (r : res text bool) : Prop :=
  (should_fail t = false /\ r = Ok true) \/ (should_fail t = true /\ exists m, r = Err m /\ (fail_msg t = None \/ fail_msg t = Some m)).
(** The outcomes of the tests of a list run one after the other with the log off. *)
Fixpoint outcomes {S} (l : list (test_case S)) (s : S) : list (test_case S * res text bool) :=
  match l with
  | [] => []
  | t :: l => let '(r, _, s) := body t 0 s in (t, r) :: outcomes l s
  end.
(** The storage they leave. *)
Fixpoint leaves {S} (l : list (test_case S)) (s : S) : S := match l with [] => s | t :: l => leaves l (snd (body t 0 s)) end.
(** What should be told of the tests of a list run with the log off: of each whether it was skipped, went as expected or not, and if not, with its own message if it
    gave one. *)
Inductive told {S} (filters : list text) : list (test_case S) -> S -> list line -> Prop :=
| told_none : forall s, told filters [] s []
| told_skipped : forall t l s o, ~ selected filters t -> told filters l s o -> told filters (t :: l) s (Skipped (name t) :: o)
| told_good : forall t l s o, selected filters t -> as_expected t (fst (fst (body t 0 s))) -> told filters l (snd (body t 0 s)) o -> told filters (t :: l) s (Good (name t) :: o)
| told_failed : forall t l s e o, selected filters t -> ~ as_expected t (fst (fst (body t 0 s))) -> (forall m, fst (fst (body t 0 s)) = Err m -> e = m) -> told filters l (snd (body t 0 s)) o -> told filters (t :: l) s (Failed (name t) e :: o).
