(** What talking to management mode must achieve. *)
From Verif Require Import Base.Prelude Base.Bytes Mm.Model.
Local Open Scope N_scope.

(** The [n] bytes of memory from [a] on are [l]. *)
Definition holds (m : mem) (a : N) (l : list N) : Prop := forall i, (i < length l)%nat -> m (a + N.of_nat i) = nth i l 0.

(** A GUID is sixteen bytes. *)
Definition is_guid (g : list N) : Prop := length g = 16%nat /\ Forall (fun b => b < 256) g.

(** A message in a buffer at [a]: recipient, length as eight bytes, least significant first, and the data. *)
Definition holds_message (m : mem) (a : N) (guid data : list N) : Prop :=
  holds m a guid /\ holds m (a + 16) (le_bytes 8 (N.of_nat (length data))) /\ holds m (a + 24) data.

(** Memory differs only within [n] bytes from [a]. *)
Definition only_within (m m' : mem) (a n : N) : Prop := forall x, x < a \/ a + n <= x -> m' x = m x.

(** [b] is the first buffer with this id. *)
Definition first_with_id (l : list cbuf) (id : N) (b : cbuf) : Prop :=
  exists p q, l = p ++ b :: q /\ cb_id b = id /\ forall c, In c p -> cb_id c <> id.

(** A buffer that management mode could address: a slice, so at most 2^63 - 1 bytes. *)
Definition buf_ok (b : cbuf) : Prop :=
  cb_len b < 2 ^ 63 /\ cb_addr b + cb_len b < 2 ^ 64 /\ (cb_mlen b = 0 \/ 24 + cb_mlen b <= cb_len b) /\
  match cb_rcpt b with Some g => is_guid g | None => cb_mlen b = 0 end.

(** The same place in memory. *)
Definition same_place (b b' : cbuf) : Prop := cb_addr b' = cb_addr b /\ cb_len b' = cb_len b /\ cb_id b' = cb_id b.

(** Bytes of memory are bytes. *)
Definition mem_ok (m : mem) : Prop := forall x, m x < 256.
