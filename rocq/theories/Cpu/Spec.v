(** What a driver expects of FlushDataCache. *)
From Verif Require Import Base.Prelude Cpu.Model.
Local Open Scope N_scope.

(** A line of [len] bytes is treated if an operation by address is done within it. *)
Definition treated (len : N) (ops : list (flush * N)) (x : N) : Prop := exists f a, In (f, a) ops /\ a / len = x / len.

(** A cache: the value memory has, and the value the processor sees if the byte is in the cache. *)
Record cache := Cache { mem : N -> N; cached : N -> option N }.
(** What the operations do to the bytes of a line. *)
Definition apply_op (hit : N -> bool) (f : flush) (c : cache) : cache :=
  Cache (fun x => if hit x then match f with Invalidate => mem c x | _ => match cached c x with Some v => v | None => mem c x end end else mem c x)
        (fun x => if hit x then match f with WriteBack => cached c x | _ => None end else cached c x).
Definition run_ops (len : N) (ops : list (flush * N)) (c : cache) : cache :=
  fold_left (fun c o => apply_op (fun x => snd o / len =? x / len) (fst o) c) ops c.
(** What the processor sees. *)
Definition seen (c : cache) (x : N) : N := match cached c x with Some v => v | None => mem c x end.
