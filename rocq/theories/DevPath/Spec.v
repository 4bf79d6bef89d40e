(** * What device paths are, independently of the code

    A device path is a list of nodes; a node is a type, a sub-type and a
    payload.  Its image in memory is the concatenation of the node images
    (type, sub-type, little-endian 16-bit total length, payload), closed by
    the End-Of-Entire-Device-Path node (7F FF 04 00).  UEFI 2.10, 10.3. *)

From Coq Require Import List NArith.
Import ListNotations.
Open Scope N_scope.

Record node := Node { n_type : N; n_sub : N; n_data : list N }.

Definition is_byte (b : N) : Prop := b < 256.

(** A node fits its own 16-bit length field. *)
Definition node_ok (n : node) : Prop :=
  n_type n < 256 /\ n_sub n < 256 /\ Forall is_byte (n_data n)
  /\ N.of_nat (length (n_data n)) + 4 < 65536.

Definition node_image (n : node) : list N :=
  let len := N.of_nat (length (n_data n)) + 4 in
  n_type n :: n_sub n :: (len mod 256) :: (len / 256) :: n_data n.

Definition end_entire : node := Node 127 255 [].
Definition end_instance : node := Node 127 1 [].

(** The image of a list of nodes, unterminated. *)
Definition nodes_image (ns : list node) : list N := flat_map node_image ns.

(** The image of the device path made of [ns]. *)
Definition path_image (ns : list node) : list N := nodes_image ns ++ [127; 255; 4; 0].

(** No node of the list closes the whole path. *)
Definition unterminated (ns : list node) : Prop :=
  Forall (fun n => ~ (n_type n = 127 /\ n_sub n = 255)) ns.

(** No node of the list is an end node of any kind: one instance. *)
Definition one_instance (ns : list node) : Prop := Forall (fun n => n_type n <> 127) ns.

(** [ns] and [rest] make up [l]. *)
Definition prefix_with {A} (p l rest : list A) : Prop := l = p ++ rest.

(** The instances of a path: maximal runs between End-Instance nodes. *)
Fixpoint instances (ns : list node) : list (list node) :=
  match ns with
  | [] => [[]]
  | n :: t =>
      if n_type n =? 127 then [] :: instances t
      else match instances t with
           | [] => [[n]]
           | i :: r => (n :: i) :: r
           end
  end.
