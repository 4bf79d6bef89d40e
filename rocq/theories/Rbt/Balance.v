(* Colours, height, and what the map says about reads. *)
From Coq Require Import NArith List Bool Lia Permutation Sorted.
From Verif Require Import Base.Prelude Rbt.Model Rbt.Spec Rbt.Api Rbt.Tree Rbt.Heap Rbt.FixAdd Rbt.Lookup Rbt.Store Rbt.Main.
Import ListNotations.
Local Open Scope N_scope.

Section Balance.
Context {D K : Type}.
Variable key : D -> K.
Variable cmp : K -> K -> comparison.
Hypothesis TO : total_order cmp.
Notation st := (@st D).
Notation amap := (@amap D).

Lemma rb_size : forall c h t, rb c h t -> 2 ^ N.of_nat h <= N.of_nat (length (ino t)) + 1.
Proof.
  induction 1 as [|c1 c2 n l i r Hl IHl Hr IHr|n l i r Hl IHl Hr IHr]; cbn [ino]; rewrite ?app_length; cbn [length].
  - cbn. lia.
  - rewrite Nat2N.inj_succ, N.pow_succ_r'. lia.
  - lia.
Qed.
Lemma rb_height : forall c h t, rb c h t -> ht t <= 2 * N.of_nat h + (if c then 0 else 1).
Proof.
  induction 1 as [|c1 c2 n l i r Hl IHl Hr IHr|n l i r Hl IHl Hr IHr]; cbn [ht].
  - lia.
  - destruct c1, c2; lia.
  - lia.
Qed.
Lemma rb_bound h t : rb true h t -> 2 ^ ht t <= (N.of_nat (length (ino t)) + 1) ^ 2.
Proof.
  intros H. pose proof (rb_size _ _ _ H) as A. pose proof (rb_height _ _ _ H) as B. cbv iota in B.
  etransitivity; [apply N.pow_le_mono_r with (c := 2 * N.of_nat h); lia|].
  rewrite N.mul_comm, N.pow_mul_r. apply N.pow_le_mono_l, A.
Qed.

Lemma order_NoDup (m : amap) : in_order key cmp (a_ents m) -> forall i d j e,
  In (i, d) (a_ents m) -> In (j, e) (a_ents m) -> cmp (key d) (key e) = Eq -> i = j /\ d = e.
Proof.
  unfold in_order. induction 1 as [|[z y] l S IH F0]; intros i d j e A B Q; [destruct A|].
  rewrite Forall_forall in F0. destruct A as [A|A], B as [B|B].
  - injection A as -> ->. injection B as -> ->. auto.
  - injection A as -> ->. specialize (F0 _ B). cbn in F0. congruence.
  - injection B as -> ->. specialize (F0 _ A). cbn in F0. rewrite (to_opp _ TO), F0 in Q. discriminate.
  - eauto.
Qed.
Lemma has_one (m : amap) k i d j e : in_order key cmp (a_ents m) -> has key cmp m k i d -> has key cmp m k j e -> i = j /\ d = e.
Proof.
  intros O [A1 A2] [B1 B2]. eapply order_NoDup; eauto. rewrite <- (to_eq _ TO _ _ _ A2). exact B2.
Qed.
Lemma split_one (m : amap) i d a b d' a' b' : NoDup (slots m) -> a_ents m = a ++ (i, d) :: b -> a_ents m = a' ++ (i, d') :: b' ->
  a = a' /\ d = d' /\ b = b'.
Proof.
  unfold slots. intros ND E1 E2. rewrite E1 in E2, ND. clear E1. revert a' E2.
  induction a as [|x a IH]; intros a' E2; destruct a' as [|y a']; cbn in *; injection E2.
  - intros; subst; auto.
  - intros E3 E4. exfalso. subst y b. cbn in ND. apply NoDup_cons_iff in ND. destruct ND as [ND _]. apply ND.
    rewrite map_app. apply in_or_app. right. now left.
  - intros E3 E4. exfalso. subst x b'. cbn in ND. apply NoDup_cons_iff in ND. destruct ND as [ND _]. apply ND.
    rewrite map_app. apply in_or_app. right. now left.
  - intros E3 ->. apply NoDup_cons_iff in ND. destruct ND as [_ ND]. destruct (IH ND _ E3) as (-> & -> & ->). auto.
Qed.
Lemma in_one (m : amap) i d e : NoDup (slots m) -> In (i, d) (a_ents m) -> In (i, e) (a_ents m) -> d = e.
Proof.
  intros ND A B. apply in_split in A, B. destruct A as (a & b & A), B as (a' & b' & B).
  eapply (split_one m i d a b e a' b' ND A B).
Qed.

(* Reading operations. *)
Definition reads (o : @op D K) : bool :=
  match o with Add _ | AddMany _ | Delete _ | DeleteIdx _ | SetWithIdx _ _ | Capacity | Height => false | _ => true end.

Lemma has_lacks (m : amap) k i d : has key cmp m k i d -> lacks key cmp m k -> False.
Proof. intros [A B] H. exact (H _ _ A B). Qed.
Lemma nb_one (m : amap) i b r r' : NoDup (slots m) -> neighbour m i b r -> neighbour m i b r' -> r = r'.
Proof.
  intros ND (a & d & e & A1 & A2) (a' & d' & e' & B1 & B2).
  destruct (split_one _ _ _ _ _ _ _ _ ND A1 B1) as (-> & -> & ->). destruct b; congruence.
Qed.
Lemma closest_one (m : amap) k i d a b i' d' a' b' : in_order key cmp (a_ents m) ->
  a_ents m = a ++ (i, d) :: b -> cmp k (key d) <> Lt -> (forall j e, In (j, e) b -> cmp k (key e) = Lt) ->
  a_ents m = a' ++ (i', d') :: b' -> cmp k (key d') <> Lt -> (forall j e, In (j, e) b' -> cmp k (key e) = Lt) -> i = i'.
Proof.
  intros _ E1 H1 F1 E2 H2 F2. rewrite E1 in E2. clear E1. revert a' E2.
  induction a as [|x a IH]; intros a' E2; destruct a' as [|y a']; cbn in E2; injection E2.
  - congruence.
  - intros E3 E4. exfalso. apply H2, (F1 i'). rewrite E3. apply in_or_app. right. now left.
  - intros E3 E4. exfalso. apply H1, (F2 i). rewrite <- E3. apply in_or_app. right. now left.
  - intros E3 _. eauto.
Qed.

Lemma reads_det (m m' m1 m2 : amap) (o : @op D K) r r' : reads o = true -> in_order key cmp (a_ents m) -> NoDup (slots m) ->
  a_ents m' = a_ents m -> a_lost m' = a_lost m -> sstep key cmp m o r m1 -> sstep key cmp m' o r' m2 -> r = r'.
Proof.
  intros Ho O ND EE EL S S'.
  assert (HH : forall k i d, has key cmp m' k i d -> has key cmp m k i d) by (intros k i d [A B]; rewrite EE in A; now split).
  assert (LK : forall k, lacks key cmp m' k -> lacks key cmp m k) by (intros k A i d Hi; rewrite <- EE in Hi; now apply (A i d)).
  assert (NB : forall i b p, neighbour m' i b p -> neighbour m i b p).
  { intros i b p (a & d & e & A & B). rewrite EE in A. now exists a, d, e. }
  destruct o; try discriminate Ho; inversion S; inversion S'; clear S S'; try subst m1; try subst m2; subst; auto;
    repeat match goal with
    | A : has key cmp m' _ _ _ |- _ => apply HH in A
    | A : lacks key cmp m' _ |- _ => apply LK in A
    | A : neighbour m' _ _ _ |- _ => apply NB in A
    | A : has key cmp m ?k _ _, B : lacks key cmp m ?k |- _ => exfalso; exact (has_lacks _ _ _ _ A B)
    | A : has key cmp m ?k ?i ?d, B : has key cmp m ?k ?j ?e |- _ =>
        destruct (has_one _ _ _ _ _ _ O A B) as [? ?]; subst; clear B
    | A : neighbour m ?i ?b ?p, B : neighbour m ?i ?b ?q |- _ => rewrite (nb_one _ _ _ _ _ ND A B); clear A
    | A : In _ (a_ents m') |- _ => rewrite EE in A
    | A : a_ents m' = _ ++ _ |- _ => rewrite EE in A
    | |- context [a_ents m'] => rewrite EE
    end; auto.
  - f_equal. f_equal. eapply in_one; eauto.
  - f_equal. f_equal.
    match goal with
    | A1 : a_ents m = ?a ++ (?i, ?d) :: ?b, A2 : a_ents m = ?a' ++ (?i', ?d') :: ?b' |- ?i = ?i' =>
        eapply (closest_one m _ i d a b i' d' a' b' O A1); eauto
    end.
  - exfalso. match goal with A2 : cmp ?k (key ?d) <> Lt |- _ => apply A2 end.
    match goal with A3 : forall j e, In (j, e) (a_ents m') -> _ |- _ => eapply A3 end.
    rewrite EE. match goal with A1 : a_ents m = _ |- _ => rewrite A1 end. apply in_or_app; right; now left.
  - exfalso. match goal with A2 : cmp ?k (key ?d) <> Lt |- _ => apply A2 end.
    match goal with A3 : forall j e, In (j, e) (a_ents m) -> _ |- _ => eapply A3 end.
    match goal with A1 : a_ents m = _ |- _ => rewrite A1 end. apply in_or_app; right; now left.
  - unfold Spec.size. rewrite EE, EL. reflexivity.
Qed.

(* What the relation gives about the map. *)
Lemma R_order kd cl s m t F L : R key cmp kd cl s m t F L -> in_order key cmp (a_ents m).
Proof. intros H. rewrite (r_ents _ _ _ _ _ _ _ _ _ H). apply order_ents, (w_srt _ _ _ _ _ _ (r_wf _ _ _ _ _ _ _ _ _ H)). Qed.
Lemma R_slots kd cl s m t F L : R key cmp kd cl s m t F L -> slots m = ino t.
Proof. intros H. unfold slots. rewrite (r_ents _ _ _ _ _ _ _ _ _ H), map_map. cbn. apply map_id. Qed.
Lemma R_nodup kd cl s m t F L : R key cmp kd cl s m t F L -> NoDup (slots m).
Proof.
  intros H. rewrite (R_slots _ _ _ _ _ _ _ H). apply nodup_NoDup. intros z.
  pose proof (w_nd _ _ _ _ _ _ (r_wf _ _ _ _ _ _ _ _ _ H) z) as Q. rewrite !cnt_app in Q. lia.
Qed.
End Balance.
