(** What the runtime driver that walks the published lists relies on. *)
From Verif Require Import Base.Prelude Runtime.Model.
Local Open Scope N_scope.

(** [path f x l y]: following [f] from [x] visits exactly [l] and then reaches [y]. *)
Fixpoint path (f : N -> N) (x : N) (l : list N) (y : N) : Prop :=
  match l with
  | [] => f x = y
  | n :: t => f x = n /\ path f n t y
  end.

(** A circular doubly linked list: forward from the head visits the nodes and returns to the head, and backward visits them
    in reverse. *)
Definition ring (m : memory) (head : N) (nodes : list N) : Prop :=
  path (fwd m) head nodes head /\ path (back m) head (rev nodes) head.

(** Images added and not removed since, oldest first. *)
Fixpoint live_images (h : list op) : list image :=
  match h with
  | [] => []
  | AddImage n b s r hd :: t =>
      if existsb (fun o => match o with RemoveImage x => x =? hd | _ => false end) t then live_images t
      else mkimage n b s r hd :: live_images t
  | _ :: t => live_images t
  end.

(** Events added with a notification function and not removed since, oldest first.  An event of the virtual-address-change
    group is published with the merged type. *)
Definition published_type (ty : N) (group : option N) : N :=
  match group with Some 1 => 1610613250 | _ => ty end.
Fixpoint live_events (h : list op) : list revent :=
  match h with
  | [] => []
  | AddEvent n e ty tpl (Some f) g c :: t =>
      if existsb (fun o => match o with RemoveEvent x => x =? e | _ => false end) t then live_events t
      else mkrevent n (published_type ty g) tpl f (match c with Some x => x | None => 0 end) e :: live_events t
  | _ :: t => live_events t
  end.

(** The most recent protocol instance. *)
Fixpoint protocol (h : list op) (cur : option (N * N)) : option (N * N) :=
  match h with
  | [] => cur
  | ProtocolInstalled a b :: t => protocol t (Some (a, b))
  | _ :: t => protocol t cur
  end.

(** Addresses in use: the nodes of the live entries and the two list heads. *)
Definition used (h : list op) : list N :=
  map i_node (live_images h) ++ map v_node (live_events h) ++
  match protocol h None with Some (a, b) => [a; b] | None => [] end.

(** Histories in which memory addresses are handed out without overlap. *)
Inductive valid : list op -> Prop :=
| valid_nil : valid []
| valid_proto h a b : valid h -> a <> b ->
    ~ In a (map i_node (live_images h) ++ map v_node (live_events h)) ->
    ~ In b (map i_node (live_images h) ++ map v_node (live_events h)) ->
    valid (h ++ [ProtocolInstalled a b])
| valid_image h n b s r hd : valid h -> ~ In n (used h) -> valid (h ++ [AddImage n b s r hd])
| valid_event h n e ty tpl f g c : valid h -> ~ In n (used h) -> valid (h ++ [AddEvent n e ty tpl f g c])
| valid_rm_image h hd : valid h -> valid (h ++ [RemoveImage hd])
| valid_rm_event h e : valid h -> valid (h ++ [RemoveEvent e]).
