(** What the hardware interrupt protocol must do, without registers: for each source its handler, whether it is enabled, and whether it is being handled. *)
From Verif Require Import Base.Prelude Exc.GicModel.
Local Open Scope N_scope.

Record source := Source { handler : option N; on : bool; busy : bool }.
Definition world := N -> source.
Definition but (w : world) (n : N) (x : source) : world := fun k => if N.eq_dec k n then x else w k.

(** The answer to a call, and the sources after it. *)
Definition ref_call (w : world) (o : op) : world * answer :=
  match o with
  | Register n None =>
      match handler (w n) with
      | None => (w, Failed InvalidParameter)
      | Some _ => (but w n (Source None false (busy (w n))), Success)
      end
  | Register n (Some h) =>
      match handler (w n) with
      | None => (but w n (Source (Some h) true (busy (w n))), Success)
      | Some _ => (w, Failed AlreadyStarted)
      end
  | Enable n => (but w n (Source (handler (w n)) true (busy (w n))), Success)
  | Disable n => (but w n (Source (handler (w n)) false (busy (w n))), Success)
  | GetState n => (w, State (on (w n)))
  | EndOf n => (but w n (Source (handler (w n)) (on (w n)) false), Success)
  | _ => (w, Success)
  end.
Fixpoint ref_calls (w : world) (l : list op) : world * list event :=
  match l with
  | [] => (w, [])
  | o :: l => let (w, a) := ref_call w o in let (w, log) := ref_calls w l in (w, Answered a :: log)
  end.

(** A signal of an enabled source that is not being handled runs its handler, which is told the source; without a handler, the system stops. *)
Fixpoint ref_run (body : N -> list op) (w : world) (l : list step) : option (list event) :=
  match l with
  | [] => Some []
  | Call o :: l => let (w, a) := ref_call w o in option_map (cons (Answered a)) (ref_run body w l)
  | Signal n :: l =>
      if on (w n) && negb (busy (w n)) then
        match handler (w n) with
        | None => None
        | Some h =>
            let (w, log) := ref_calls (but w n (Source (Some h) (on (w n)) true)) (body h) in
            option_map (fun l => Invoked n h :: log ++ l) (ref_run body w l)
        end
      else ref_run body w l
  end.
Definition quiet : world := fun _ => Source None false false.

(** The calls for which this holds: on private sources (SGI and PPI), and not of the trigger type; a handler does not register. *)
Definition private_op (o : op) : Prop :=
  match o with Register n _ | Enable n | Disable n | GetState n | EndOf n => n < 32 | _ => False end.
Definition private_step (x : step) : Prop := match x with Call o => private_op o | Signal n => n < 32 end.
Definition handler_op (o : op) : Prop := private_op o /\ match o with Register _ _ => False | _ => True end.
