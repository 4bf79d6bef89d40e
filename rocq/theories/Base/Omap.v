(** Ordered maps with [N] keys: the standard library's [BTreeMap], kept as its entries in ascending key order.
    Only the observable behaviour of the map matters to the models, so the tree is not represented. *)
From Coq Require Import Sorted.
From Verif Require Import Base.Prelude.
Local Open Scope N_scope.

Section Omap.
Context {A : Type}.
Definition omap := list (N * A).

(** BTreeMap::get. *)
Fixpoint om_get (m : omap) (k : N) : option A :=
  match m with
  | [] => None
  | (k', v) :: t => if k =? k' then Some v else om_get t k
  end.

(** BTreeMap::contains_key. *)
Definition om_mem (m : omap) (k : N) : bool := match om_get m k with Some _ => true | None => false end.

(** BTreeMap::insert. *)
Fixpoint om_set (m : omap) (k : N) (v : A) : omap :=
  match m with
  | [] => [(k, v)]
  | (k', v') :: t => if k <? k' then (k, v) :: m else if k =? k' then (k, v) :: t else (k', v') :: om_set t k v
  end.

(** BTreeMap::remove. *)
Fixpoint om_del (m : omap) (k : N) : omap :=
  match m with
  | [] => []
  | (k', v') :: t => if k =? k' then t else (k', v') :: om_del t k
  end.

(** [get_mut] followed by an update in place. *)
Fixpoint om_upd (m : omap) (k : N) (f : A -> A) : omap :=
  match m with
  | [] => []
  | (k', v') :: t => if k =? k' then (k', f v') :: t else (k', v') :: om_upd t k f
  end.

Definition om_keys (m : omap) : list N := map fst m.
Definition om_sorted (m : omap) : Prop := StronglySorted N.lt (om_keys m).

Lemma om_sorted_nil : om_sorted [].
Proof. constructor. Qed.

Lemma om_sorted_tl k v t : om_sorted ((k, v) :: t) -> om_sorted t.
Proof. intros H. inversion H; assumption. Qed.

Lemma om_sorted_hd k v t k' : om_sorted ((k, v) :: t) -> In k' (om_keys t) -> k < k'.
Proof.
  intros H Hi. inversion H as [|? ? ? HF]; subst.
  rewrite Forall_forall in HF. apply HF. exact Hi.
Qed.

Lemma om_get_in m k v : om_get m k = Some v -> In (k, v) m.
Proof.
  induction m as [|[k' v'] t IH]; cbn [om_get]; [discriminate|].
  destruct (k =? k') eqn:E; intros H.
  - left. f_equal; [lia|congruence].
  - right. auto.
Qed.

Lemma om_get_key m k : om_get m k <> None <-> In k (om_keys m).
Proof.
  induction m as [|[k' v'] t IH]; cbn [om_get om_keys map In fst]; [tauto|].
  destruct (k =? k') eqn:E.
  - split; intros; [left; lia|discriminate].
  - rewrite IH. unfold om_keys. split; [tauto|]. intros [|]; [lia|auto].
Qed.

Lemma om_get_none m k : om_get m k = None <-> ~ In k (om_keys m).
Proof. rewrite <- om_get_key. destruct (om_get m k); split; intros; try tauto; try discriminate. exfalso; apply H; discriminate. Qed.

Lemma om_mem_key m k : om_mem m k = true <-> In k (om_keys m).
Proof. rewrite <- om_get_key. unfold om_mem. destruct (om_get m k); split; intros; try discriminate; auto. Qed.

Lemma om_in_get m k v : om_sorted m -> In (k, v) m -> om_get m k = Some v.
Proof.
  induction m as [|[k' v'] t IH]; intros Hs; [intros []|].
  intros [H|H]; cbn [om_get].
  - injection H as -> ->. rewrite N.eqb_refl. reflexivity.
  - assert (k' < k) by (eapply om_sorted_hd; [exact Hs|]; unfold om_keys; apply in_map_iff; exists (k, v); auto).
    destruct (k =? k') eqn:E; [lia|]. apply IH; [eapply om_sorted_tl; eauto|exact H].
Qed.

Lemma om_get_set m k v k' : om_get (om_set m k v) k' = if k' =? k then Some v else om_get m k'.
Proof.
  induction m as [|[q w] t IH]; cbn [om_set om_get].
  - destruct (k' =? k); reflexivity.
  - destruct (k <? q) eqn:E; [|destruct (k =? q) eqn:E1]; cbn [om_get].
    + destruct (k' =? k); reflexivity.
    + destruct (k' =? k) eqn:E2; [reflexivity|]. destruct (k' =? q) eqn:E3; [lia|reflexivity].
    + destruct (k' =? q) eqn:E3; [destruct (k' =? k) eqn:E2; [lia|reflexivity]|exact IH].
Qed.

Lemma om_keys_set_in m k v k' : In k' (om_keys (om_set m k v)) <-> k' = k \/ In k' (om_keys m).
Proof.
  rewrite <- !om_get_key, om_get_set. destruct (k' =? k) eqn:E.
  - split; intros; [left; lia|discriminate].
  - split; [auto|]. intros [|]; [lia|auto].
Qed.

Lemma om_sorted_set m k v : om_sorted m -> om_sorted (om_set m k v).
Proof.
  induction m as [|[q w] t IH]; intros Hs; cbn [om_set].
  - constructor; constructor.
  - destruct (k <? q) eqn:E; [|destruct (k =? q) eqn:E1].
    + constructor; [exact Hs|]. constructor; [cbn; lia|].
      apply Forall_forall. intros x Hx. pose proof (om_sorted_hd _ _ _ _ Hs Hx). cbn [fst]. lia.
    + assert (k = q) by lia. subst q.
      unfold om_sorted in *. cbn [om_keys map fst] in *. exact Hs.
    + constructor.
      * apply IH. eapply om_sorted_tl; eauto.
      * apply Forall_forall. intros x Hx. change (In x (om_keys (om_set t k v))) in Hx.
        apply om_keys_set_in in Hx. cbn [fst]. destruct Hx as [->|Hx]; [lia|].
        eapply om_sorted_hd; eauto.
Qed.

Lemma om_get_del m k k' : om_sorted m -> om_get (om_del m k) k' = if k' =? k then None else om_get m k'.
Proof.
  induction m as [|[q w] t IH]; intros Hs; cbn [om_del om_get].
  - destruct (k' =? k); reflexivity.
  - pose proof (om_sorted_tl _ _ _ Hs) as Ht.
    destruct (k =? q) eqn:E; cbn [om_get].
    + destruct (k' =? k) eqn:E2.
      * apply om_get_none. intros Hin. pose proof (om_sorted_hd _ _ _ _ Hs Hin). lia.
      * destruct (k' =? q) eqn:E3; [lia|reflexivity].
    + destruct (k' =? q) eqn:E3; [destruct (k' =? k) eqn:E2; [lia|reflexivity]|auto].
Qed.

Lemma om_keys_del_in m k k' : In k' (om_keys (om_del m k)) -> In k' (om_keys m).
Proof.
  induction m as [|[q w] t IH]; cbn [om_del]; [tauto|].
  destruct (k =? q); cbn [om_keys map fst In]; [tauto|]. intros [|]; [auto|right; apply IH; auto].
Qed.

Lemma om_sorted_del m k : om_sorted m -> om_sorted (om_del m k).
Proof.
  induction m as [|[q w] t IH]; intros Hs; cbn [om_del]; [exact Hs|].
  pose proof (om_sorted_tl _ _ _ Hs) as Ht.
  destruct (k =? q); [exact Ht|].
  constructor; [apply IH; exact Ht|].
  apply Forall_forall. intros x Hx. change (In x (om_keys (om_del t k))) in Hx.
  apply om_keys_del_in in Hx. eapply om_sorted_hd; eauto.
Qed.

Lemma om_get_upd m k f k' :
  om_get (om_upd m k f) k' = if k' =? k then option_map f (om_get m k) else om_get m k'.
Proof.
  induction m as [|[q w] t IH]; cbn [om_upd om_get].
  - destruct (k' =? k); reflexivity.
  - destruct (k =? q) eqn:E; cbn [om_get].
    + destruct (k' =? k) eqn:E2; destruct (k' =? q) eqn:E3; try lia; reflexivity.
    + destruct (k' =? q) eqn:E3; [|exact IH]. destruct (k' =? k) eqn:E2; [lia|reflexivity].
Qed.

Lemma om_keys_upd m k f : om_keys (om_upd m k f) = om_keys m.
Proof.
  induction m as [|[q w] t IH]; cbn [om_upd]; [reflexivity|].
  destruct (k =? q); cbn [om_keys map fst]; [reflexivity|]. f_equal. exact IH.
Qed.

Lemma om_sorted_upd m k f : om_sorted m -> om_sorted (om_upd m k f).
Proof. unfold om_sorted. rewrite om_keys_upd. auto. Qed.

Lemma om_ext m1 m2 : om_sorted m1 -> om_sorted m2 -> (forall k, om_get m1 k = om_get m2 k) -> m1 = m2.
Proof.
  revert m2. induction m1 as [|[k1 v1] t1 IH]; intros [|[k2 v2] t2] H1 H2 He.
  - reflexivity.
  - specialize (He k2). cbn [om_get] in He. rewrite N.eqb_refl in He. discriminate.
  - specialize (He k1). cbn [om_get] in He. rewrite N.eqb_refl in He. discriminate.
  - assert (k1 = k2) as ->.
    { pose proof (He k1) as E1. pose proof (He k2) as E2. cbn [om_get] in E1, E2. rewrite N.eqb_refl in E1, E2.
      destruct (k1 =? k2) eqn:E; [lia|]. destruct (k2 =? k1) eqn:E'; [lia|].
      assert (In k1 (om_keys t2)) as I1 by (apply om_get_key; rewrite <- E1; discriminate).
      assert (In k2 (om_keys t1)) as I2 by (apply om_get_key; rewrite E2; discriminate).
      pose proof (om_sorted_hd _ _ _ _ H2 I1). pose proof (om_sorted_hd _ _ _ _ H1 I2). lia. }
    pose proof (He k2) as E. cbn [om_get] in E. rewrite N.eqb_refl in E. injection E as ->.
    f_equal. apply IH; [eapply om_sorted_tl; eauto|eapply om_sorted_tl; eauto|].
    intros k. specialize (He k). cbn [om_get] in He. destruct (k =? k2) eqn:Ek; [|exact He].
    assert (k = k2) by lia. subst k.
    transitivity (@None A); [|symmetry]; apply om_get_none; intros Hin.
    + pose proof (om_sorted_hd _ _ _ _ H1 Hin). lia.
    + pose proof (om_sorted_hd _ _ _ _ H2 Hin). lia.
Qed.

Lemma om_keys_nodup m : om_sorted m -> NoDup (om_keys m).
Proof.
  unfold om_sorted. induction 1 as [|x l Hs IH HF]; constructor; [|exact IH].
  intros Hin. rewrite Forall_forall in HF. specialize (HF _ Hin). lia.
Qed.

Lemma om_del_empty m k : om_sorted m -> (forall k', k' <> k -> om_get m k' = None) -> om_del m k = [].
Proof.
  intros Hs H. apply om_ext; [apply om_sorted_del; exact Hs|apply om_sorted_nil|].
  intros k'. rewrite om_get_del by exact Hs. cbn [om_get]. destruct (k' =? k) eqn:E; [reflexivity|].
  apply H. lia.
Qed.
End Omap.
Arguments omap : clear implicits.
