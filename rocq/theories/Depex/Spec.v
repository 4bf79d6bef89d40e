(** Independent vocabulary for dependency expressions (PI spec vol. 2, 10.7): boolean expressions
    over GUIDs, and their postfix byte encoding. *)
From Verif Require Import Base.Prelude Depex.Model.
Local Open Scope N_scope.

(** A GUID is its 16-byte memory image. *)
Definition guid := list N.
Definition wf_guid (g : guid) : Prop := length g = 16%nat.

Inductive expr : Type :=
| EProto (g : guid)
| ETrue | EFalse
| ENot (e : expr)
| EAnd (a b : expr)
| EOr (a b : expr).

Fixpoint wf_expr (e : expr) : Prop :=
  match e with
  | EProto g => wf_guid g
  | ETrue | EFalse => True
  | ENot a => wf_expr a
  | EAnd a b | EOr a b => wf_expr a /\ wf_expr b
  end.

Fixpoint not_free (e : expr) : Prop :=
  match e with
  | ENot _ => False
  | EAnd a b | EOr a b => not_free a /\ not_free b
  | _ => True
  end.

(** Truth under a predicate "this GUID is installed". *)
Fixpoint holds (inst : guid -> Prop) (e : expr) : Prop :=
  match e with
  | EProto g => inst g
  | ETrue => True
  | EFalse => False
  | ENot a => ~ holds inst a
  | EAnd a b => holds inst a /\ holds inst b
  | EOr a b => holds inst a \/ holds inst b
  end.

(** Postfix encoding: PUSH = 2, AND = 3, OR = 4, NOT = 5, TRUE = 6, FALSE = 7, END = 8. *)
Fixpoint encode (e : expr) : list N :=
  match e with
  | EProto g => 2 :: g
  | ETrue => [6]
  | EFalse => [7]
  | ENot a => encode a ++ [5]
  | EAnd a b => encode a ++ encode b ++ [3]
  | EOr a b => encode a ++ encode b ++ [4]
  end.
Definition depex_bytes (e : expr) : list N := encode e ++ [8].

(** Evaluating the same depex object over a history of installed-protocol lists. *)
Fixpoint eval_history (hist : list (list bytes)) (e : list opcode) : list opcode :=
  match hist with
  | [] => e
  | ps :: h => eval_history h (snd (eval ps e))
  end.

(** Opcodes that may not occur before END in an expression that evaluates true. *)
Definition bad (o : opcode) : Prop :=
  match o with Unknown | Malformed _ _ | Sor | Before _ | After _ => True | _ => False end.
