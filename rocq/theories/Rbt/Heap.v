(* When a node buffer holds a tree, and what the pointer surgery of the two
   trees does to it. *)
From Coq Require Import NArith List Bool Lia Permutation.
From Verif Require Import Base.Prelude Rbt.Model Rbt.Tree.
Import ListNotations.
Local Open Scope N_scope.

Section Heap.
Context {D : Type}.
Notation cell := (@cell D).
Notation st := (@st D).

Fixpoint rep (f : N -> cell) (par : option N) (t : tree) : Prop :=
  match t with
  | E => True
  | T c l i r =>
      c_color (f i) = c /\ c_parent (f i) = par /\
      c_left (f i) = root_of l /\ c_right (f i) = root_of r /\
      rep f (Some i) l /\ rep f (Some i) r
  end.

(* A context whose hole holds the pointer [p]. *)
Fixpoint repc (f : N -> cell) (C : ctx) (p : option N) : Prop :=
  match C with
  | [] => True
  | FL c i r :: C =>
      c_color (f i) = c /\ c_parent (f i) = par_of C /\
      c_left (f i) = p /\ c_right (f i) = root_of r /\
      rep f (Some i) r /\ repc f C (Some i)
  | FR c l i :: C =>
      c_color (f i) = c /\ c_parent (f i) = par_of C /\
      c_left (f i) = root_of l /\ c_right (f i) = p /\
      rep f (Some i) l /\ repc f C (Some i)
  end.

Lemma rep_plug f : forall C t, rep f None (plug C t) <-> repc f C (root_of t) /\ rep f (par_of C) t.
Proof.
  induction C as [|[c i r|c l i] C IH]; intros t; cbn [plug plug1 repc par_of f_idx].
  - tauto.
  - rewrite IH. cbn [rep root_of]. tauto.
  - rewrite IH. cbn [rep root_of]. tauto.
Qed.

Lemma rep_frame f f' : forall t par,
  (forall j, (0 < cnt j (ino t))%nat -> f' j = f j) -> rep f par t -> rep f' par t.
Proof.
  induction t as [|c l IHl i r IHr]; intros par H R; cbn [rep] in *; auto.
  assert (Hi : f' i = f i).
  { apply H. cbn [ino]. autorewrite with cn. lia. }
  rewrite Hi. destruct R as (A & B & Cc & Dd & Rl & Rr). repeat (split; [assumption|]). split.
  - apply IHl; auto. intros j Hj. apply H. cbn [ino]. autorewrite with cn. lia.
  - apply IHr; auto. intros j Hj. apply H. cbn [ino]. autorewrite with cn. lia.
Qed.

Lemma repc_frame f f' : forall C p,
  (forall j, (0 < cnt j (lpart C) + cnt j (rpart C))%nat -> f' j = f j) -> repc f C p -> repc f' C p.
Proof.
  induction C as [|[c i r|c l i] C IH]; intros p H R; cbn [repc] in *; auto.
  - cbn [lpart rpart] in H.
    assert (Hi : f' i = f i) by (apply H; autorewrite with cn; lia).
    rewrite Hi. destruct R as (A & B & Cc & Dd & Rl & Rr). repeat (split; [assumption|]). split.
    + eapply rep_frame; [|exact Rl]. intros j Hj. apply H. autorewrite with cn. lia.
    + apply IH; auto. intros j Hj. apply H. autorewrite with cn. lia.
  - cbn [lpart rpart] in H.
    assert (Hi : f' i = f i) by (apply H; autorewrite with cn; lia).
    rewrite Hi. destruct R as (A & B & Cc & Dd & Rl & Rr). repeat (split; [assumption|]). split.
    + eapply rep_frame; [|exact Rl]. intros j Hj. apply H. autorewrite with cn. lia.
    + apply IH; auto. intros j Hj. apply H. autorewrite with cn. lia.
Qed.

(* The buffer holds exactly the tree [t]: links, colours and the root pointer
   agree, no slot is used twice, and all slots are inside the buffer. *)
Record Inv (s : st) (t : tree) : Prop := {
  i_rep : rep (s_at s) None t;
  i_nd : nodup (ino t);
  i_bnd : forall z, (0 < cnt z (ino t))%nat -> z < s_cap s;
  i_root : s_root s = root_of t }.

(* What every operation on the tree leaves alone. *)
Record keeps (s s' : st) (l : list N) : Prop := {
  k_cap : s_cap s' = s_cap s;
  k_len : s_len s' = s_len s;
  k_avail : s_avail s' = s_avail s;
  k_data : forall j, c_data (s_at s' j) = c_data (s_at s j);
  k_out : forall j, cnt j l = 0%nat -> s_at s' j = s_at s j }.

Lemma keeps_refl s l : keeps s s l.
Proof. constructor; auto. Qed.
Lemma keeps_trans s1 s2 s3 l l' : (forall z, cnt z l = cnt z l') -> keeps s1 s2 l -> keeps s2 s3 l' -> keeps s1 s3 l.
Proof.
  intros P [A1 A2 A3 A4 A5] [B1 B2 B3 B4 B5]. constructor.
  - now rewrite B1.
  - now rewrite B2.
  - now rewrite B3.
  - intros j. now rewrite B4.
  - intros j H. rewrite B5, A5; auto. now rewrite <- P.
Qed.
Lemma keeps_incl s1 s2 l l' : (forall z, (0 < cnt z l)%nat -> (0 < cnt z l')%nat) -> keeps s1 s2 l -> keeps s1 s2 l'.
Proof.
  intros P [A1 A2 A3 A4 A5]. constructor; auto. intros j H. apply A5.
  specialize (P j). lia.
Qed.

(* ------------------------------------------------------------------ *)
(* Running code step by step *)

Lemma at_same (s : st) i g : s_at (upds s i g) i = g (s_at s i).
Proof. cbn. unfold upd. now rewrite N.eqb_refl. Qed.
Lemma at_diff (s : st) i j g : j <> i -> s_at (upds s i g) j = s_at s j.
Proof. intros H. cbn. unfold upd. apply N.eqb_neq in H. now rewrite H. Qed.
Lemma at_root (s : st) r : s_at (with_root s r) = s_at s.
Proof. reflexivity. Qed.
Lemma cap_upds (s : st) i g : s_cap (upds s i g) = s_cap s.
Proof. reflexivity. Qed.
Lemma cap_root (s : st) r : s_cap (with_root s r) = s_cap s.
Proof. reflexivity. Qed.

Lemma data_upds (s : st) i g j : (forall c, c_data (g c) = c_data c) ->
  c_data (s_at (upds s i g) j) = c_data (s_at s j).
Proof. intros H. cbn. unfold upd. destruct (j =? i); auto. Qed.

Section Steps.
Context {B : Type}.
Variable s : st.
Lemma st_ret {A} (a : A) (k : A -> @mon D B) : mbind (ret a) k s = k a s.
Proof. reflexivity. Qed.
Lemma st_bind {A A'} (m : @mon D A) (k : A -> @mon D A') (k' : A' -> @mon D B) :
  mbind (mbind m k) k' s = mbind m (fun a => mbind (k a) k') s.
Proof. unfold mbind. destruct (m s) as [[a s']| | |]; reflexivity. Qed.
Lemma st_parent i (k : _ -> @mon D B) : i < s_cap s -> mbind (n_parent i) k s = k (c_parent (s_at s i)) s.
Proof. intros H. apply N.ltb_lt in H. unfold n_parent, mbind, deref, ret. now rewrite H. Qed.
Lemma st_left i (k : _ -> @mon D B) : i < s_cap s -> mbind (n_left i) k s = k (c_left (s_at s i)) s.
Proof. intros H. apply N.ltb_lt in H. unfold n_left, mbind, deref, ret. now rewrite H. Qed.
Lemma st_right i (k : _ -> @mon D B) : i < s_cap s -> mbind (n_right i) k s = k (c_right (s_at s i)) s.
Proof. intros H. apply N.ltb_lt in H. unfold n_right, mbind, deref, ret. now rewrite H. Qed.
Lemma st_color i (k : _ -> @mon D B) : i < s_cap s -> mbind (n_color i) k s = k (c_color (s_at s i)) s.
Proof. intros H. apply N.ltb_lt in H. unfold n_color, mbind, deref, ret. now rewrite H. Qed.
Lemma st_data i (k : _ -> @mon D B) : i < s_cap s -> mbind (n_data i) k s = k (c_data (s_at s i)) s.
Proof. intros H. apply N.ltb_lt in H. unfold n_data, mbind, deref, ret. now rewrite H. Qed.
Lemma st_modify i g (k : _ -> @mon D B) : i < s_cap s -> mbind (modify i g) k s = k tt (upds s i g).
Proof. intros H. apply N.ltb_lt in H. unfold mbind, modify. now rewrite H. Qed.
Lemma st_set_root r (k : _ -> @mon D B) : mbind (set_root r) k s = k tt (with_root s r).
Proof. reflexivity. Qed.
Lemma st_get_root (k : _ -> @mon D B) : mbind get_root k s = k (s_root s) s.
Proof. reflexivity. Qed.
End Steps.

Lemma rn_left (s : st) i : i < s_cap s -> n_left i s = Val (c_left (s_at s i), s).
Proof. intros H. apply N.ltb_lt in H. unfold n_left, mbind, deref, ret. now rewrite H. Qed.
Lemma rn_right (s : st) i : i < s_cap s -> n_right i s = Val (c_right (s_at s i), s).
Proof. intros H. apply N.ltb_lt in H. unfold n_right, mbind, deref, ret. now rewrite H. Qed.
Lemma rn_modify (s : st) i g : i < s_cap s -> modify i g s = Val (tt, upds s i g).
Proof. intros H. apply N.ltb_lt in H. unfold modify. now rewrite H. Qed.

Lemma peq_same i : peq (Some i) (Some i) = true.
Proof. cbn. apply N.eqb_refl. Qed.
Lemma peq_diff i j : i <> j -> peq (Some i) (Some j) = false.
Proof. intros. cbn. now apply N.eqb_neq. Qed.
Lemma peq_none_l j : peq None (Some j) = false.
Proof. reflexivity. Qed.
Lemma peq_none_r j : peq (Some j) None = false.
Proof. reflexivity. Qed.

End Heap.

#[export] Hint Rewrite @cap_upds @cap_root @at_root @at_same : hp.

(* Prove disequalities and bounds from a duplicate-free inorder list. *)
Ltac cn_in H := cbn [ino lpart rpart plug plug1] in H; autorewrite with cn in H; cbn [ino lpart rpart] in H; autorewrite with cn in H.
Ltac cn_goal := cbn [ino lpart rpart plug plug1]; autorewrite with cn; cbn [ino lpart rpart]; autorewrite with cn.
(* x <> y *)
Ltac ne ND :=
  match goal with
  | |- ?x <> ?y => let H := fresh in intro H; let Q := fresh in pose proof (ND y) as Q; rewrite H in Q; rewrite !dl_refl in Q; clear - Q; lia
  end.

Ltac rd_step :=
  first [ rewrite st_ret | rewrite st_bind | rewrite st_set_root | rewrite st_get_root
        | rewrite st_parent by (autorewrite with hp; assumption)
        | rewrite st_left by (autorewrite with hp; assumption)
        | rewrite st_right by (autorewrite with hp; assumption)
        | rewrite st_color by (autorewrite with hp; assumption)
        | rewrite st_data by (autorewrite with hp; assumption)
        | rewrite st_modify by (autorewrite with hp; assumption)
        | rewrite rn_modify by (autorewrite with hp; assumption)
        | rewrite rn_left by (autorewrite with hp; assumption)
        | rewrite rn_right by (autorewrite with hp; assumption) ].

Ltac ev_step :=
  first [ progress autorewrite with hp
        | rewrite at_diff by congruence
        | progress unfold n_set_left, n_set_right, n_set_parent, n_set_color
        | progress cbn [o_left o_right o_parent o_color o_set_left o_set_right o_set_parent o_set_color
                        with_left with_right with_parent with_color with_data
                        c_data c_color c_parent c_left c_right is_none root_of negb andb orb par_of f_idx]
        | rewrite peq_same | rewrite peq_none_l | rewrite peq_none_r
        | rewrite peq_diff by congruence ].

(* Using what is known about the cells of the starting state. *)
Ltac fact_step :=
  match goal with
  | H : c_left (s_at ?s ?i) = _ |- context [c_left (s_at ?s ?i)] => rewrite H
  | H : c_right (s_at ?s ?i) = _ |- context [c_right (s_at ?s ?i)] => rewrite H
  | H : c_parent (s_at ?s ?i) = _ |- context [c_parent (s_at ?s ?i)] => rewrite H
  | H : c_color (s_at ?s ?i) = _ |- context [c_color (s_at ?s ?i)] => rewrite H
  | H : peq ?a ?b = _ |- context [peq ?a ?b] => rewrite H
  end.
Ltac exec := repeat first [rd_step | ev_step | fact_step].

(* Reads only. *)
Ltac ro_step :=
  first [ rewrite st_ret | rewrite st_bind | rewrite st_get_root
        | rewrite st_parent by (autorewrite with hp; assumption)
        | rewrite st_left by (autorewrite with hp; assumption)
        | rewrite st_right by (autorewrite with hp; assumption)
        | rewrite st_color by (autorewrite with hp; assumption)
        | rewrite st_data by (autorewrite with hp; assumption)
        | rewrite rn_left by (autorewrite with hp; assumption)
        | rewrite rn_right by (autorewrite with hp; assumption) ].
Ltac rexec := repeat first [ro_step | ev_step | fact_step].

(* Finishing: the new links. *)
(* The duplicate-freeness of an inorder list, counted out. *)
Ltac count_out ND := 
  let N := fresh "N" in pose proof (fun z => ltac:(let Q := fresh in pose proof (ND z) as Q; cn_in Q; exact Q)) as N;
  clear ND; rename N into ND; cbv beta in ND.
Ltac same_cell ND j Hj :=
  repeat first [ rewrite at_root
    | match goal with |- context [s_at (upds _ ?i _) j] =>
        rewrite (at_diff _ i j) by
          (let H := fresh in let Q := fresh in
           intro H; rewrite H in Hj; pose proof (ND i) as Q; rewrite dl_refl in Q; clear - Q Hj; lia)
      end ];
  reflexivity.
Ltac fr ND :=
  let j := fresh "j" in let Hj := fresh "Hj" in
  lazymatch goal with
  | |- rep _ _ _ => eapply rep_frame; [|eassumption]; intros j Hj; same_cell ND j Hj
  | |- repc _ _ _ => eapply repc_frame; [|eassumption]; intros j Hj; same_cell ND j Hj
  end.
Ltac cell_goal ND :=
  lazymatch goal with
  | |- True => exact I
  | |- _ = _ => repeat ev_step; first [assumption | reflexivity | congruence]
  | |- _ => fr ND
  end.
Ltac inv_goal ND BD RT :=
  constructor;
  [ rewrite rep_plug; cbn [repc rep root_of par_of f_idx]; repeat match goal with |- _ /\ _ => split end; cell_goal ND
  | let z := fresh in intro z; let Q := fresh in pose proof (ND z) as Q; cn_goal; clear - Q; lia
  | let z := fresh in let Hz := fresh in intros z Hz; autorewrite with hp; apply BD; cn_in Hz; cn_goal; clear - Hz; lia
  | cbn [s_root with_root upds with_at]; rewrite ?RT, ?root_plug; reflexivity ].
Ltac keeps_goal :=
  constructor; try reflexivity;
  [ intros ?; rewrite ?at_root; repeat (rewrite data_upds by reflexivity; rewrite ?at_root); reflexivity
  | let j := fresh "j" in let Hj := fresh in intros j Hj; cn_in Hj;
    repeat first [ rewrite at_root
    | match goal with |- context [s_at (upds _ ?i _) j] => rewrite (at_diff _ i j) by (let H := fresh in intro H; subst; cn_in Hj; lia) end ];
    reflexivity ].
