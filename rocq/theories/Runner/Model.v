(** The runner of on-platform tests.  sdk/patina/src/test.rs and sdk/patina/src/test/__private_api.rs. *)
From Verif Require Import Base.Prelude.
Local Open Scope N_scope.

(** Text as bytes. *)
Definition text := list N.
(** What a test does: from the maximum level of the log and the storage to its outcome and new ones.  [Ok false]: its parameters were not there. *)
Definition func (S : Type) : Type := N -> S -> res text bool * N * S.
(** __private_api.rs:45-52. *)
Record test_case (S : Type) := Test { name : text; skip : bool; should_fail : bool; fail_msg : option text; body : func S }.
Arguments Test {S}. Arguments name {S}. Arguments skip {S}. Arguments should_fail {S}. Arguments fail_msg {S}. Arguments body {S}.

Fixpoint text_eqb (a b : text) : bool := match a, b with [], [] => true | x :: a, y :: b => (x =? y) && text_eqb a b | _, _ => false end.
Fixpoint is_prefix (p s : text) : bool := match p, s with [], _ => true | x :: p, y :: s => (x =? y) && is_prefix p s | _, _ => false end.
(** core's str::contains. *)
Fixpoint contains (p s : text) : bool := is_prefix p s || match s with [] => false | _ :: s => contains p s end.
(** __private_api.rs:55-60. *)
Definition should_run {S} (t : test_case S) (filters : list text) : bool :=
  match filters with
  | [] => negb (skip t)
  | _ => existsb (fun p => contains p (name t)) filters && negb (skip t)
  end.
(** The messages of __private_api.rs:77-78; stand-ins. *)
Definition NO_PARAMS : text := [1].
Definition PASSED : text := [2].
(** __private_api.rs:76-83. *)
Definition verdict {S} (t : test_case S) (ret : res text bool) : res text unit :=
  match should_fail t, ret with
  | _, Ok false => Err NO_PARAMS
  | true, Ok true => Err PASSED
  | true, Err msg => match fail_msg t with
                     | Some m => if text_eqb msg m then Ok tt else Err msg
                     | None => Ok tt
                     end
  | false, Ok true => Ok tt
  | false, Err msg => Err msg
  | _, Panic => Panic
  end.
(** __private_api.rs:62-84: the level is set to off (0) and back, except in debug mode.  A panic leaves it off. *)
Definition run {S} (debug : bool) (t : test_case S) (level : N) (s : S) : res text unit * N * S :=
  if debug then
    let '(r, l, s) := body t level s in (verdict t r, l, s)
  else
    let '(r, l, s) := body t 0 s in (verdict t r, match r with Panic => l | _ => level end, s).
(** What the runner writes: how many tests, and what became of each. *)
Inductive line := Count (n : N) | Skipped (t : text) | Good (t : text) | Failed (t e : text).
(** test.rs:230-252; a line is written if the level lets it through: at 3 for information, 1 for errors. *)
Definition say (level need : N) (l : line) : list line := if need <=? level then [l] else [].
Fixpoint loop {S} (debug fast : bool) (filters : list text) (l : list (test_case S)) (bad : bool) (level : N) (s : S) : res unit unit * list line * N * S :=
  match l with
  | [] => (if bad then Err tt else Ok tt, [], level, s)
  | t :: l =>
      if negb (should_run t filters) then
        let '(r, o, lv, s) := loop debug fast filters l bad level s in (r, say level 3 (Skipped (name t)) ++ o, lv, s)
      else
        let '(v, level, s) := run debug t level s in
        match v with
        | Ok _ => let '(r, o, lv, s) := loop debug fast filters l bad level s in (r, say level 3 (Good (name t)) ++ o, lv, s)
        | Err e =>
            if fast then (Err tt, say level 1 (Failed (name t) e), level, s)
            else let '(r, o, lv, s) := loop debug fast filters l true level s in (r, say level 1 (Failed (name t) e) ++ o, lv, s)
        | Panic => (Panic, [], level, s)
        end
  end.
(** test.rs:221-253: [warn!] for none, [info!] otherwise. *)
Definition runner {S} (debug fast : bool) (filters : list text) (tests : list (test_case S)) (level : N) (s : S) : res unit unit * list line * N * S :=
  let n := N.of_nat (length tests) in
  let '(r, o, lv, s) := loop debug fast filters tests false level s in
  (r, say level (if n =? 0 then 2 else 3) (Count n) ++ o, lv, s).
(** __private_api.rs:108-121: a test whose parameters are not there is not run.  Initialising the state of the parameters, [init], may change the storage. *)
Definition function_test {S} (init : S -> S) (valid : S -> bool) (f : N -> S -> res text unit * N * S) : func S := fun level s =>
  let s := init s in
  if negb (valid s) then (Ok false, level, s)
  else let '(r, l, s) := f level s in (match r with Ok _ => Ok true | Err e => Err e | Panic => Panic end, l, s).
