(** What the debugger's access to memory must achieve. *)
From Verif Require Import Base.Prelude Mm.Model Mm.Spec Debugger.Model.
Local Open Scope N_scope.

(** A byte that the page table lets a program read. *)
Definition readable (e : env) (x : N) : Prop := exists a, e_attr e (x - x mod 4096) = Some a /\ N.testbit a 13 = false.
(** A byte that does not fault. *)
Definition sound (h : hw) (e : env) (x : N) : Prop := readable e x /\ hw_bogus h x = false.

(** The table is what it was. *)
Definition same_table (e e' : env) : Prop := forall p, e_attr e' p = e_attr e p.

(** A user's breakpoints: they are set and removed one after the other. *)
Inductive bpop := SetBp (addr : N) | ClearBp (addr : N).
Fixpoint run_bp (dbg u : bool) (h : hw) (bi : list N) (st : env * slots) (ops : list bpop) : list (res unit bool) * (env * slots) :=
  match ops with
  | [] => ([], st)
  | o :: ops =>
      let (r, st') := match o with SetBp a => add_breakpoint dbg u h bi st a | ClearBp a => remove_breakpoint dbg h st a end in
      let (rs, st'') := run_bp dbg u h bi st' ops in
      (r :: rs, st'')
  end.

(** The addresses set after a history; at most 25 fit. *)
Definition live_bp1 (l : list N) (o : bpop) : list N :=
  match o with
  | SetBp a => if (length l <? 25)%nat then l ++ [a] else l
  | ClearBp a => filter (fun x => negb (x =? a)) l
  end.
(** What the requests report: whether there was room, and whether the address was set. *)
Fixpoint bp_answers (l : list N) (ops : list bpop) : list (res unit bool) :=
  match ops with
  | [] => []
  | o :: ops => Ok (match o with SetBp _ => (length l <? 25)%nat | ClearBp a => existsb (N.eqb a) l end) :: bp_answers (live_bp1 l o) ops
  end.
Definition live_bp (ops : list bpop) : list N := fold_left live_bp1 ops [].

(** A place for the instruction: within a page, and the page readable, not inside a larger mapping if it is read-only, and sound for the test load. *)
Definition good_place (h : hw) (e : env) (bi : list N) (a : N) : Prop :=
  a mod 4096 + N.of_nat (length bi) <= 4096 /\ a + 8 <= two64
  /\ (forall i, i < 8 -> sound h e (a + i))
  /\ forall at_, e_attr e (a - a mod 4096) = Some at_ -> N.testbit at_ 17 = true -> hw_large h (a - a mod 4096) = false /\ hw_refuses h (a - a mod 4096) = false.

(** An address is set only while no set breakpoint touches its bytes. *)
Fixpoint bp_ok (h : hw) (e : env) (bi : list N) (l : list N) (ops : list bpop) : Prop :=
  match ops with
  | [] => True
  | o :: ops =>
      match o with
      | SetBp a => good_place h e bi a /\ forall b, In b l -> b + N.of_nat (length bi) <= a \/ a + N.of_nat (length bi) <= b
      | ClearBp _ => True
      end /\ bp_ok h e bi (live_bp1 l o) ops
  end.

(** Memory as the program would see it without debugger, with the instruction at every set address. *)
Definition shows_breakpoints (m m' : mem) (bi : list N) (l : list N) : Prop :=
  (forall a, In a l -> holds m' a bi)
  /\ forall x, (forall a, In a l -> x < a \/ a + N.of_nat (length bi) <= x) -> m' x = m x.
