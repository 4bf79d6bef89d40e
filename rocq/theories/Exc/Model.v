(** Registration and dispatch of exception handlers: core/patina_internal_cpu/src/interrupts/exception_handling.rs and the interrupt part of
    patina_dxe_core/src/cpu_arch_protocol.rs.  One processor; the locks are spin locks, so waiting for a lock that the interrupted code holds never ends. *)
From Verif Require Import Base.Prelude.
Local Open Scope N_scope.

(** What code does: it registers handlers (named by numbers), removes them, or causes an exception.  [RegHit t h k]: exception [k] comes while the lock for the
    registration is held. *)
Inductive act := Reg (t : N) (h : option N) | Unreg (t : N) | Raise (t : N) | RegHit (t : N) (h : option N) (k : N).
(** What can be seen: answers, and calls of handlers with the exception type. *)
Inductive event := Answer (e : option efi_error) | Called (t h : N).
(** exception_handling.rs:32-37: the handlers, and for each lock the readers and the writer. *)
Record st := St { s_handler : N -> option N; s_readers : N -> nat; s_writer : N -> bool; s_log : list event }.
Definition start : st := St (fun _ => None) (fun _ => O) (fun _ => false) [].
Definition say (s : st) (e : event) : st := St (s_handler s) (s_readers s) (s_writer s) (s_log s ++ [e]).
Definition upd {A} (f : N -> A) (t : N) (v : A) : N -> A := fun x => if x =? t then v else f x.
Definition set_handler (s : st) (t : N) (h : option N) : st := St (upd (s_handler s) t h) (s_readers s) (s_writer s) (s_log s).
Definition set_readers (s : st) (t : N) (n : nat) : st := St (s_handler s) (upd (s_readers s) t n) (s_writer s) (s_log s).
Definition set_writer (s : st) (t : N) (b : bool) : st := St (s_handler s) (s_readers s) (upd (s_writer s) t b) (s_log s).
(** RwLock::write ends only if nobody holds the lock. *)
Definition free (s : st) (t : N) : bool := Nat.eqb (s_readers s t) 0 && negb (s_writer s t).

Inductive outcome := Done (s : st) | Hang | Panicked | OutOfFuel.

(** exception_handling.rs:55-61, with the lock held. *)
Definition register_locked (s : st) (t h : N) : st :=
  match s_handler s t with Some _ => say s (Answer (Some AlreadyStarted)) | None => say (set_handler s t (Some h)) (Answer None) end.

(** [body h] is what handler [h] does; [num] the number of exception types. *)
Fixpoint run (fuel : nat) (body : N -> list act) (num : N) (acts : list act) (s : st) : outcome :=
  match fuel with
  | O => OutOfFuel
  | S fuel =>
      match acts with
      | [] => Done s
      | a :: acts =>
          (* exception_handling.rs:95-115 *)
          let handle (k : N) (s : st) : outcome :=
            if num <=? k then Panicked
            else if s_writer s k then Panicked
            else
              match s_handler s k with
              | None => Panicked
              | Some h =>
                  match run fuel body num (body h) (say (set_readers s k (S (s_readers s k))) (Called k h)) with
                  | Done s => Done (set_readers s k (pred (s_readers s k)))
                  | o => o
                  end
              end in
          let continue (o : outcome) : outcome := match o with Done s => run fuel body num acts s | o => o end in
          match a with
          | Raise k => continue (handle k s)
          (* 46-62 *)
          | Reg t h =>
              match h with
              | None => continue (Done (say s (Answer (Some InvalidParameter))))
              | Some h =>
                  if num <=? t then continue (Done (say s (Answer (Some InvalidParameter))))
                  else if negb (free s t) then Hang
                  else continue (Done (register_locked s t h))
              end
          | RegHit t h k =>
              match h with
              | None => continue (Done (say s (Answer (Some InvalidParameter))))
              | Some h =>
                  if num <=? t then continue (Done (say s (Answer (Some InvalidParameter))))
                  else if negb (free s t) then Hang
                  else continue (match handle k (set_writer s t true) with Done s => Done (set_writer (register_locked s t h) t false) | o => o end)
              end
          (* 71-83 *)
          | Unreg t =>
              if num <=? t then continue (Done (say s (Answer (Some InvalidParameter))))
              else if negb (free s t) then Hang
              else
                match s_handler s t with
                | None => continue (Done (say s (Answer (Some InvalidParameter))))
                | Some _ => continue (Done (say (set_handler s t None) (Answer None)))
                end
          end
      end
  end.

(** cpu_arch_protocol.rs:108-127: a null handler removes; the type is signed, and cast. *)
Definition register_interrupt_handler (t : Z) (h : option N) : act :=
  let t := Z.to_N (t mod 2 ^ 64)%Z in
  match h with None => Unreg t | Some h => Reg t (Some h) end.
