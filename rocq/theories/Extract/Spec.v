(** What is in a section that has to be extracted. *)
From Verif Require Import Base.Prelude Base.Bytes.
Local Open Scope N_scope.

(** A Brotli section: eight bytes with the size of the output, eight with the scratch size, and the stream. *)
Definition brotli_section (size : N) (scratch stream data : list N) : Prop := size < 2 ^ 64 /\ length scratch = 8%nat /\ data = le_bytes 8 size ++ scratch ++ stream.
(** Bytes of nothing but zeros. *)
Definition zeros (l : list N) : Prop := Forall (fun b => b = 0) l.
