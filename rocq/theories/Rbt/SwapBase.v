(* Exchanging a node with its successor (node.rs:523-573). *)
From Coq Require Import NArith List Bool Lia Permutation.
From Verif Require Import Base.Prelude Rbt.Model Rbt.Tree Rbt.Heap Rbt.Rot Rbt.FixAdd Rbt.FixDel.
Import ListNotations.
Local Open Scope N_scope.


Ltac neqq := first [assumption | apply not_eq_sym; assumption].
Ltac inb := cbn [s_cap upds with_at with_root]; assumption.
Ltac projs := cbn [with_left with_right with_parent with_color with_data
                   c_data c_color c_parent c_left c_right].
(* Evaluate reads of updated cells. *)
Ltac cell_nf := repeat lazymatch goal with
  | |- context [s_at (with_root ?s ?r)] => rewrite (at_root s r)
  | |- context [s_at (upds ?s ?i ?g) ?i] => rewrite (at_same s i g); projs
  | |- context [s_at (upds ?s ?i ?g) ?j] => rewrite (at_diff s i j g) by neqq
  end.
(* The current value of a field of a cell, from what is known about the
   starting state. *)
Ltac rd_val e := let V := fresh "V" in
  eassert (V : e = _) by (cell_nf; projs; first [eassumption | reflexivity]);
  rewrite V; clear V; cbn [root_of par_of f_idx].

Ltac xstep := lazymatch goal with
  | |- context [mbind (ret ?a) ?k ?s] => rewrite (st_ret s a k)
  | |- context [mbind (mbind ?m ?k) ?k' ?s] => rewrite (st_bind s m k k')
  | |- context [mbind (n_parent ?i) ?k ?s] => rewrite (st_parent s i k) by inb; rd_val (c_parent (s_at s i))
  | |- context [mbind (n_left ?i) ?k ?s] => rewrite (st_left s i k) by inb; rd_val (c_left (s_at s i))
  | |- context [mbind (n_right ?i) ?k ?s] => rewrite (st_right s i k) by inb; rd_val (c_right (s_at s i))
  | |- context [mbind (n_color ?i) ?k ?s] => rewrite (st_color s i k) by inb; rd_val (c_color (s_at s i))
  | |- context [mbind (modify ?i ?g) ?k ?s] => rewrite (st_modify s i g k) by inb
  | |- context [mbind (n_set_parent ?i ?v) ?k ?s] => unfold n_set_parent at 1
  | |- context [mbind (n_set_left ?i ?v) ?k ?s] => unfold n_set_left at 1
  | |- context [mbind (n_set_right ?i ?v) ?k ?s] => unfold n_set_right at 1
  | |- context [mbind (n_set_color ?i ?v) ?k ?s] => unfold n_set_color at 1
  | |- context [mbind (if peq (Some ?i) (Some ?i) then _ else _) _ _] => rewrite (peq_same i)
  | |- context [mbind (if peq (Some ?i) (Some ?j) then _ else _) _ _] => rewrite (peq_diff i j) by neqq
  | |- context [mbind (if peq None (Some ?j) then _ else _) _ _] => rewrite (peq_none_l j)
  | H : peq ?a ?b = _ |- context [mbind (if peq ?a ?b then _ else _) _ _] => rewrite H
  | |- context [mbind (o_left _) _ _] => progress cbn [o_left]
  | |- context [mbind (o_set_left _ _) _ _] => progress cbn [o_set_left]
  | |- context [mbind (o_right _) _ _] => progress cbn [o_right]
  | |- context [mbind (o_set_right _ _) _ _] => progress cbn [o_set_right]
  | |- context [mbind (o_parent _) _ _] => progress cbn [o_parent]
  | |- context [mbind (o_set_parent _ _) _ _] => progress cbn [o_set_parent]
  | |- context [mbind (o_color _) _ _] => progress cbn [o_color]
  | |- context [mbind (o_set_color _ _) _ _] => progress cbn [o_set_color]
  | |- context [modify ?i ?g ?s] => rewrite (rn_modify s i g) by inb
  | |- context [o_set_parent (Some ?i) ?v ?s] => cbn [o_set_parent]; unfold n_set_parent at 1
  | |- context [o_set_parent None ?v ?s] => cbn [o_set_parent]; unfold ret at 1
  end.
Ltac xexec := repeat xstep.

Lemma ino_T c l i r : ino (T c l i r) = ino l ++ i :: ino r.
Proof. reflexivity. Qed.
Lemma ino_E : ino E = [].
Proof. reflexivity. Qed.
#[export] Hint Rewrite ino_T ino_E : cn.

(* A context below a parent. *)
Definition par_at (q : option N) (C : ctx) : option N :=
  match C with [] => q | fr :: _ => Some (f_idx fr) end.
Fixpoint repo {D} (f : N -> @cell D) (q : option N) (C : ctx) (p : option N) : Prop :=
  match C with
  | [] => True
  | FL c i r :: C =>
      c_color (f i) = c /\ c_parent (f i) = par_at q C /\
      c_left (f i) = p /\ c_right (f i) = root_of r /\
      rep f (Some i) r /\ repo f q C (Some i)
  | FR c l i :: C =>
      c_color (f i) = c /\ c_parent (f i) = par_at q C /\
      c_left (f i) = root_of l /\ c_right (f i) = p /\
      rep f (Some i) l /\ repo f q C (Some i)
  end.
Lemma rep_plug_at {D} (f : N -> @cell D) q : forall C t, rep f q (plug C t) <-> repo f q C (root_of t) /\ rep f (par_at q C) t.
Proof.
  induction C as [|[c i r|c l i] C IH]; intros t; cbn [plug plug1 repo par_at f_idx].
  - tauto.
  - rewrite IH. cbn [rep root_of]. tauto.
  - rewrite IH. cbn [rep root_of]. tauto.
Qed.
Lemma repo_frame {D} (f f' : N -> @cell D) q : forall C p,
  (forall j, (0 < cnt j (lpart C) + cnt j (rpart C))%nat -> f' j = f j) -> repo f q C p -> repo f' q C p.
Proof.
  induction C as [|[c i r|c l i] C IH]; intros p H R; cbn [repo] in *; auto.
  - cbn [lpart rpart] in H.
    assert (Hi : f' i = f i) by (apply H; autorewrite with cn; lia).
    rewrite Hi. destruct R as (A & B & Cc & Dd & Rl & Rr). repeat (split; [assumption|]). split.
    + eapply rep_frame; [|exact Rl]. intros j Hj. apply H. autorewrite with cn. lia.
    + apply IH; auto. intros j Hj. apply H. autorewrite with cn. lia.
  - cbn [lpart rpart] in H.
    assert (Hi : f' i = f i) by (apply H; autorewrite with cn; lia).
    rewrite Hi. destruct R as (A & B & Cc & Dd & Rl & Rr). repeat (split; [assumption|]). split.
    + eapply rep_frame; [|exact Rl]. intros j Hj. apply H. autorewrite with cn. lia.
    + apply IH; auto. intros j Hj. apply H. autorewrite with cn. lia.
Qed.
Lemma plug_far c3 p3 r3 M c4 p4 r4 t :
  plug (FL c3 p3 r3 :: M ++ [FL c4 p4 r4]) t = T c4 (plug M (T c3 t p3 r3)) p4 r4.
Proof. cbn [plug plug1]. now rewrite plug_app. Qed.

Ltac x_same_cell ND j Hj :=
  repeat lazymatch goal with
    | |- context [s_at (upds ?s ?i ?g) j] =>
        lazymatch goal with
        | H : j <> i |- _ => rewrite (at_diff s i j g H)
        | _ => let H := fresh in assert (H : j <> i) by
            (let H := fresh in let Q := fresh in
             intro H; rewrite H in Hj; pose proof (ND i) as Q; rewrite dl_refl in Q; clear - Q Hj; lia)
        end
    end; reflexivity.
Ltac x_fr ND :=
  let j := fresh "j" in let Hj := fresh "Hj" in
  lazymatch goal with
  | |- rep _ _ _ => eapply rep_frame; [|eassumption]; intros j Hj; x_same_cell ND j Hj
  | |- repc _ _ _ => eapply repc_frame; [|eassumption]; intros j Hj; x_same_cell ND j Hj
  | |- repo _ _ _ _ => eapply repo_frame; [|eassumption]; intros j Hj; x_same_cell ND j Hj
  end.
Ltac x_cell_goal ND :=
  lazymatch goal with
  | |- True => exact I
  | |- _ = _ => cell_nf; projs; first [assumption | reflexivity | congruence]
  | |- _ => x_fr ND
  end.
Ltac x_keeps_goal :=
  constructor; try reflexivity;
  [ intros ?; repeat (rewrite data_upds by reflexivity); reflexivity
  | let j := fresh "j" in let Hj := fresh in intros j Hj; cn_in Hj;
    repeat lazymatch goal with
    | |- context [s_at (upds ?s ?i ?g) j] =>
        lazymatch goal with
        | H : j <> i |- _ => rewrite (at_diff s i j g H)
        | _ => let H := fresh in assert (H : j <> i) by (intro H; subst j; rewrite dl_refl in Hj; clear - Hj; lia)
        end
    end; reflexivity ].


(* The links after the exchange; the root pointer is left to the caller. *)
Definition swapped {D} (s s' : @st D) (t t' : tree) : Prop :=
  rep (s_at s') None t' /\ s_root s' = s_root s /\ keeps s s' (ino t).


