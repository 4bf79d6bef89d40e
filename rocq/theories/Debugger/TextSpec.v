(** What a person who debugs expects of the debugger's text. *)
From Verif Require Import Base.Prelude Debugger.TextModel.
Local Open Scope N_scope.

(** A decimal number. *)
Definition digits (l : str) : Prop := Forall (fun c => 48 <= c <= 57) l.
Definition value (l : str) : N := fold_left (fun a c => 10 * a + (c - 48)) l 0.
(** The modifier "O[k]" in front of a command. *)
Definition offset_token (l : str) : str := [79; 91] ++ l ++ [93].
Definition is_offset_token (t : str) : Prop := exists x, t = offset_token x.

(** A client that fetches a document in pieces of the sizes it likes, until a piece is empty. *)
Fixpoint fetch (dbg : bool) (doc : str) (sizes : list (N * N)) (offset : N) : res unit str :=
  match sizes with
  | [] => Ok []
  | (n, room) :: sizes =>
      let* p := description dbg doc offset n room in
      match p with
      | [] => Ok []
      | _ => let* r := fetch dbg doc sizes (offset + N.of_nat (length p)) in Ok (p ++ r)
      end
  end.

(** A name without the suffix ".efi", as often as it is there. *)
Inductive stem : str -> str -> Prop :=
| stem_cut s t : stem s t -> stem (s ++ [46; 101; 102; 105]) t
| stem_done s : (forall r, s <> r ++ [46; 101; 102; 105]) -> stem s s.
(** Equal but for the case of ASCII letters. *)
Definition same_letter (a b : N) : Prop := a = b \/ (65 <= a <= 90 /\ b = a + 32) \/ (65 <= b <= 90 /\ a = b + 32).
Definition same_name (a b : str) : Prop := Forall2 same_letter a b.

(** What a user does about modules, and the loads of the firmware. *)
Inductive mop := BreakAll | Break (names : list str) | Clear | Load (name : str) (base size : N).
Fixpoint run_m (m : modules) (ops : list mop) : list bool * modules :=
  match ops with
  | [] => ([], m)
  | BreakAll :: ops => run_m (break_all m) ops
  | Break names :: ops => run_m (fold_left add_break names m) ops
  | Clear :: ops => run_m (clear_breaks m) ops
  | Load name base size :: ops =>
      let (b, m) := notify_load true m name base size in
      let (bs, m) := run_m m ops in (b :: bs, m)
  end.
(** The requests since the last time they were cleared, the newest first. *)
Fixpoint since_clear (past : list mop) : list mop :=
  match past with [] => [] | Clear :: _ => [] | o :: r => o :: since_clear r end.
(** A load stops the program if a request that still stands asks for it; [past] is what was done before, the newest first. *)
Definition stops (past : list mop) (name : str) : Prop :=
  In BreakAll (since_clear past)
  \/ exists names b s t, In (Break names) (since_clear past) /\ In b names /\ stem b s /\ s <> [] /\ stem name t /\ same_name s t.
Fixpoint loads (past ops : list mop) : list (list mop * str) :=
  match ops with
  | [] => []
  | o :: ops => (match o with Load n _ _ => [(past, n)] | _ => [] end) ++ loads (o :: past) ops
  end.
Definition loaded (ops : list mop) : list (str * N * N) := flat_map (fun o => match o with Load n b s => [(n, b, s)] | _ => [] end) ops.
