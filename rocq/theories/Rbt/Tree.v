(* Functional trees, contexts and counting, used to describe what a node
   buffer holds. *)
From Coq Require Import NArith List Bool Lia Permutation.
From Verif Require Import Base.Prelude.
Import ListNotations.
Local Open Scope N_scope.

Inductive tree := E | T (c : bool) (l : tree) (i : N) (r : tree).

Definition root_of (t : tree) : option N := match t with E => None | T _ _ i _ => Some i end.
Definition col (t : tree) : bool := match t with E => true | T c _ _ _ => c end.

Fixpoint ino (t : tree) : list N :=
  match t with E => [] | T _ l i r => ino l ++ i :: ino r end.

(* A tree with a hole, the hole's parent first. *)
Inductive frame := FL (c : bool) (i : N) (r : tree) | FR (c : bool) (l : tree) (i : N).
Definition f_idx fr := match fr with FL _ i _ => i | FR _ _ i => i end.
Definition ctx := list frame.
Definition plug1 fr t := match fr with FL c i r => T c t i r | FR c l i => T c l i t end.
Fixpoint plug (C : ctx) (t : tree) : tree :=
  match C with [] => t | fr :: C => plug C (plug1 fr t) end.
Definition par_of (C : ctx) : option N := match C with [] => None | fr :: _ => Some (f_idx fr) end.

Fixpoint lpart (C : ctx) : list N :=
  match C with
  | [] => []
  | FL _ _ _ :: C => lpart C
  | FR _ l i :: C => lpart C ++ ino l ++ [i]
  end.
Fixpoint rpart (C : ctx) : list N :=
  match C with
  | [] => []
  | FL _ i r :: C => i :: ino r ++ rpart C
  | FR _ _ _ :: C => rpart C
  end.

Lemma ino_plug : forall C t, ino (plug C t) = lpart C ++ ino t ++ rpart C.
Proof.
  induction C as [|[c i r|c l i] C IH]; intros t; cbn [plug plug1 lpart rpart].
  - now rewrite app_nil_r.
  - rewrite IH. cbn [ino]. now rewrite <- app_assoc.
  - rewrite IH. cbn [ino]. now rewrite <- !app_assoc.
Qed.

Lemma plug_app : forall C C' t, plug (C ++ C') t = plug C' (plug C t).
Proof. induction C; intros; cbn; auto. Qed.

Fixpoint ctx_root (C : ctx) (p : option N) : option N :=
  match C with [] => p | fr :: C => ctx_root C (Some (f_idx fr)) end.
Lemma root_plug : forall C t, root_of (plug C t) = ctx_root C (root_of t).
Proof. induction C as [|[c i r|c l i] C IH]; intros t; cbn; auto; now rewrite IH. Qed.

(* Counting occurrences: NoDup and membership by arithmetic. *)
Definition dl (x z : N) : nat := if x =? z then 1%nat else 0%nat.
Fixpoint cnt (z : N) (l : list N) : nat :=
  match l with [] => 0%nat | x :: l => (dl x z + cnt z l)%nat end.
Lemma dl_refl x : dl x x = 1%nat.
Proof. unfold dl. now rewrite N.eqb_refl. Qed.
Lemma dl_le x z : (dl x z <= 1)%nat.
Proof. unfold dl. destruct (x =? z); lia. Qed.
Lemma dl_pos x z : (0 < dl x z)%nat <-> x = z.
Proof. unfold dl. destruct (N.eqb_spec x z); split; intros; (lia || congruence). Qed.
Lemma cnt_app z a b : cnt z (a ++ b) = (cnt z a + cnt z b)%nat.
Proof. induction a; cbn; lia. Qed.
Lemma cnt_cons z x l : cnt z (x :: l) = (dl x z + cnt z l)%nat.
Proof. reflexivity. Qed.
Lemma cnt_nil z : cnt z [] = 0%nat.
Proof. reflexivity. Qed.
Lemma In_cnt z l : In z l <-> (0 < cnt z l)%nat.
Proof.
  induction l as [|x l IH]; cbn [In cnt]; [lia|].
  pose proof (dl_pos x z). pose proof (dl_le x z). rewrite IH. lia.
Qed.
Definition nodup (l : list N) : Prop := forall z, (cnt z l <= 1)%nat.
Lemma nodup_NoDup l : nodup l <-> NoDup l.
Proof.
  induction l as [|x l IH]; split.
  - constructor.
  - intros _ z. cbn. lia.
  - intros H. constructor.
    + rewrite In_cnt. specialize (H x). cbn in H. rewrite dl_refl in H. lia.
    + apply IH. intros z. specialize (H z). cbn in H. lia.
  - intros H z. inversion H; subst. cbn. apply IH in H3. specialize (H3 z).
    destruct (N.eq_dec x z) as [->|n].
    + rewrite dl_refl. rewrite In_cnt in H2. lia.
    + pose proof (dl_pos x z). pose proof (dl_le x z). lia.
Qed.
Lemma cnt_perm z a b : Permutation a b -> cnt z a = cnt z b.
Proof. induction 1; cbn; lia. Qed.

Fixpoint size (t : tree) : nat := match t with E => 0 | T _ l _ r => size l + S (size r) end.
Lemma size_ino t : length (ino t) = size t.
Proof. induction t; cbn; auto. rewrite app_length. cbn. lia. Qed.

Lemma nodup_bound l cap : nodup l -> (forall z, In z l -> z < cap) -> (length l <= N.to_nat cap)%nat.
Proof.
  intros ND B.
  transitivity (length (map N.of_nat (seq 0 (N.to_nat cap)))).
  - apply NoDup_incl_length. now apply nodup_NoDup.
    intros z Hz. apply in_map_iff. exists (N.to_nat z). split; [lia|].
    apply in_seq. specialize (B z Hz). lia.
  - now rewrite map_length, seq_length.
Qed.

(* Depth of the hole. *)
Lemma ctx_length C t : (length C <= length (ino (plug C t)))%nat.
Proof.
  rewrite ino_plug, !app_length.
  cut (length C <= length (lpart C) + length (rpart C))%nat; [lia|].
  induction C as [|[c i r|c l i] C IH]; cbn [lpart rpart length]; rewrite ?app_length; cbn [length]; lia.
Qed.

#[export] Hint Rewrite ino_plug cnt_app cnt_cons cnt_nil dl_refl : cn.
