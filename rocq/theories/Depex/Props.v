(** C22, C23, C24: dependency expressions. *)
From Verif Require Import Base.Prelude Depex.Model Depex.Spec Depex.Proofs.
Local Open Scope N_scope.

(** C22. Parsing and evaluating the byte encoding of any expression gives its truth value under the
    installed protocols, whatever bytes follow END. *)
Theorem depex_eval_correct : forall e tail installed, wf_expr e ->
  (fst (eval installed (depex_from (depex_bytes e ++ tail))) = true
   <-> holds (fun g => In g installed) e).
Proof. exact eval_plain. Qed.
Print Assumptions depex_eval_correct.

(** C22 (debug build): no [debug_assert!] fires on such an expression and the answer is the same. *)
Theorem depex_eval_debug_correct : forall e tail installed, wf_expr e ->
  exists r, eval_debug installed (depex_from (depex_bytes e ++ tail)) = Ok r /\
            (r = true <-> holds (fun g => In g installed) e).
Proof. exact eval_debug_plain. Qed.
Print Assumptions depex_eval_debug_correct.

(** C23. Evaluations latch: after any history of evaluations against [hist], a GUID counts as installed
    if it is installed now or was at any earlier evaluation. *)
Theorem depex_eval_latches : forall e tail hist installed, wf_expr e ->
  (fst (eval installed (eval_history hist (depex_from (depex_bytes e ++ tail)))) = true
   <-> holds (fun g => In g installed \/ exists old, In old hist /\ In g old) e).
Proof. exact eval_after_history. Qed.
Print Assumptions depex_eval_latches.

(** C23. Once a NOT-free expression has evaluated true it is true at every later evaluation,
    whatever is installed then. *)
Theorem depex_stays_true : forall e tail hist installed later, wf_expr e -> not_free e ->
  fst (eval installed (eval_history hist (depex_from (depex_bytes e ++ tail)))) = true ->
  fst (eval later (eval_history (hist ++ [installed]) (depex_from (depex_bytes e ++ tail)))) = true.
Proof. exact eval_not_free_stable. Qed.
Print Assumptions depex_stays_true.

(** C23, refuted for expressions with NOT: an expression can be true and later become false although
    protocols were only added. *)
Theorem depex_stays_true_with_not_refuted : exists e ps1 ps2, wf_expr e /\ incl ps1 ps2 /\
  fst (eval ps1 (depex_from (depex_bytes e))) = true /\
  fst (eval ps2 (eval_history [ps1] (depex_from (depex_bytes e)))) = false.
Proof.
  exists (ENot (EProto [1;2;3;4;5;6;7;8;9;10;11;12;13;14;15;16])), [],
         [[1;2;3;4;5;6;7;8;9;10;11;12;13;14;15;16]].
  split; [reflexivity|]. split; [apply incl_nil_l|]. split; vm_compute; reflexivity.
Qed.
Print Assumptions depex_stays_true_with_not_refuted.

(** C23. For EVERY byte string: an answer of true means that an END opcode was reached and every opcode
    before it was well formed (no unknown, truncated, SOR, BEFORE or AFTER opcode). *)
Theorem depex_true_only_if_wellformed : forall bs installed,
  fst (eval installed (depex_from bs)) = true ->
  exists pre post, depex_from bs = pre ++ End :: post /\ Forall (fun o => ~ bad o) pre.
Proof. intros bs installed. exact (eval_go_true_shape installed (depex_from bs) []). Qed.
Print Assumptions depex_true_only_if_wellformed.

(** C23. Parsing consumes every byte of every string exactly once. *)
Theorem depex_parse_consumes_all : forall bs,
  length bs = fold_right (fun o acc => (byte_size o + acc)%nat) 0%nat (depex_from bs).
Proof. intros bs. exact (parse_covers (length bs) bs (le_n _)). Qed.
Print Assumptions depex_parse_consumes_all.

(** C24. SOR blocks until scheduled, and scheduling leaves exactly the rest of the expression. *)
Theorem depex_sor_blocks_until_scheduled : forall e tail installed, wf_expr e ->
  fst (eval installed (depex_from (9 :: depex_bytes e ++ tail))) = false /\
  is_sor (depex_from (9 :: depex_bytes e ++ tail)) = true /\
  (fst (eval installed (schedule (depex_from (9 :: depex_bytes e ++ tail)))) = true
   <-> holds (fun g => In g installed) e).
Proof.
  intros e tail installed W.
  destruct (schedule_sor e tail W installed) as (H1 & H2 & H3).
  split; [exact H1|]. split; [exact H3|]. rewrite H2. exact (eval_plain e tail installed W).
Qed.
Print Assumptions depex_sor_blocks_until_scheduled.

(** C24. Scheduling only removes one leading SOR: any other expression is left as it is, and a second
    request on an ordinary expression changes nothing. *)
Theorem depex_schedule_only_sor : forall bs,
  match bs with
  | 9 :: rest => schedule (depex_from bs) = depex_from rest
  | _ => schedule (depex_from bs) = depex_from bs
  end.
Proof. exact schedule_only_sor. Qed.
Print Assumptions depex_schedule_only_sor.

(** C24. BEFORE g / AFTER g followed by END is recognised as associated with g and never true by itself;
    an ordinary expression is never associated and never SOR. *)
Theorem depex_association : forall g e tail installed, wf_guid g -> wf_expr e ->
  is_associated (depex_from (0 :: g ++ [8])) = Some (ABefore g) /\
  is_associated (depex_from (1 :: g ++ [8])) = Some (AAfter g) /\
  fst (eval installed (depex_from (0 :: g ++ [8]))) = false /\
  fst (eval installed (depex_from (1 :: g ++ [8]))) = false /\
  is_associated (depex_from (depex_bytes e ++ tail)) = None /\
  is_sor (depex_from (depex_bytes e ++ tail)) = false.
Proof.
  intros g e tail installed Wg We.
  destruct (associated_never_true g [8] installed Wg) as [H1 H2].
  destruct (not_associated_encode e tail We) as [H3 H4].
  exact (conj (associated_before g [8] Wg) (conj (associated_after g [8] Wg)
          (conj H1 (conj H2 (conj H3 H4))))).
Qed.
Print Assumptions depex_association.

(** C24 finding: BEFORE followed by further opcodes (forbidden by the PI spec) is still treated as
    associated. *)
Theorem depex_association_strict_refuted : exists g rest, wf_guid g /\
  rest <> [8] /\ is_associated (depex_from (0 :: g ++ rest)) = Some (ABefore g).
Proof. exists (repeat 7 16), [6;8]. split; [reflexivity|]. split; [discriminate|]. vm_compute. reflexivity. Qed.
Print Assumptions depex_association_strict_refuted.

(** Concrete, non-trivial instances of the hypotheses. *)
Definition g1 : guid := [0xF6;0x3F;0x5E;0x66;0xCC;0x46;0xd4;0x11;0x9A;0x38;0x00;0x90;0x27;0x3F;0xC1;0x4D].
Definition g2 : guid := [0xB1;0xCC;0xBA;0x26;0x42;0x6F;0xd4;0x11;0xBC;0xE7;0x00;0x80;0xC7;0x3C;0x88;0x81].
Example depex_wf_ex : wf_expr (EAnd (EProto g1) (EOr (ENot (EProto g2)) EFalse)).
Proof. repeat split. Qed.
Example depex_ex_true : fst (eval [g1] (depex_from (depex_bytes (EAnd (EProto g1) (EOr (ENot (EProto g2)) EFalse))))) = true.
Proof. reflexivity. Qed.
Example depex_ex_false : fst (eval [g2;g1] (depex_from (depex_bytes (EAnd (EProto g1) (EOr (ENot (EProto g2)) EFalse))))) = false.
Proof. reflexivity. Qed.
Example depex_ex_latch : fst (eval [] (eval_history [[g1]; [g2]] (depex_from (depex_bytes (EAnd (EProto g1) (EProto g2)))))) = true.
Proof. reflexivity. Qed.
Example depex_ex_garbage : fst (eval [g1] (depex_from [6; 2; 1; 1; 8])) = false.
Proof. reflexivity. Qed.
