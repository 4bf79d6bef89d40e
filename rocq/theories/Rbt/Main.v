(* Every history agrees with the sorted map. *)
From Coq Require Import NArith List Bool Lia Permutation Sorted.
From Verif Require Import Base.Prelude Rbt.Model Rbt.Spec Rbt.Api Rbt.Tree Rbt.Heap Rbt.Rot Rbt.FixAdd Rbt.FixDel Rbt.Remove Rbt.RemTree Rbt.Lookup Rbt.Store.
Import ListNotations.
Local Open Scope N_scope.

Section Main.
Context {D K : Type}.
Variable key : D -> K.
Variable cmp : K -> K -> comparison.
Hypothesis TO : total_order cmp.
Notation st := (@st D).
Notation kdx := (Lookup.kd key).
Notation srt := (Lookup.srt key cmp).
Notation WF := (Store.WF key cmp).
Notation amap := (@amap D).

Definition ent (s : st) (i : N) : N * D := (i, c_data (s_at s i)).
Fixpoint from (i : N) (n : nat) : list N := match n with O => [] | S n => i :: from (i + 1) n end.

(* The collection holds what the map m says. *)
Record R (kd : kind) (clean : bool) (s : st) (m : amap) (t : tree) (F L : list N) : Prop := {
  r_wf : WF s t F L;
  r_ents : a_ents m = map (ent s) (ino t);
  r_lost : a_lost m = N.of_nat (length L);
  r_cap : a_cap m = s_cap s;
  r_black : kd = Red_black -> col t = true;
  r_free : clean = true -> F = from (s_len s) (N.to_nat (s_cap s - s_len s));
  r_rb : clean = true -> kd = Red_black -> exists h, rb true h t }.

Lemma size_R kd cl s m t F L : R kd cl s m t F L -> Spec.size m + a_lost m = s_len s.
Proof.
  intros H. unfold Spec.size. rewrite (r_ents _ _ _ _ _ _ _ H), map_length, (r_lost _ _ _ _ _ _ _ H).
  rewrite (w_len _ _ _ _ _ _ (r_wf _ _ _ _ _ _ _ H)). lia.
Qed.
Lemma len_cap_R kd cl s m t F L : R kd cl s m t F L -> s_len s <= s_cap s.
Proof.
  intros H. pose proof (r_wf _ _ _ _ _ _ _ H) as W. pose proof (w_total _ _ _ _ _ _ W).
  pose proof (w_len _ _ _ _ _ _ W). lia.
Qed.
Lemma in_ents s t i d : In (i, d) (map (ent s) (ino t)) <-> In i (ino t) /\ d = c_data (s_at s i).
Proof.
  rewrite in_map_iff. unfold ent. split.
  - intros (j & E0 & Hj). injection E0 as -> <-. auto.
  - intros [H ->]. exists i. auto.
Qed.
Lemma has_R kd cl s m t F L k i : R kd cl s m t F L -> In i (ino t) -> cmp k (kdx s i) = Eq ->
  has key cmp m k i (c_data (s_at s i)).
Proof. intros H Hi Hk. split; [|exact Hk]. rewrite (r_ents _ _ _ _ _ _ _ H). now apply in_ents. Qed.
Lemma lacks_R kd cl s m t F L k : R kd cl s m t F L -> (forall i, In i (ino t) -> cmp k (kdx s i) <> Eq) ->
  lacks key cmp m k.
Proof.
  intros H Hn i d Hi. rewrite (r_ents _ _ _ _ _ _ _ H) in Hi. apply in_ents in Hi. destruct Hi as [Hi ->].
  apply Hn, Hi.
Qed.
Lemma order_ents s l : srt s l -> in_order key cmp (map (ent s) l).
Proof.
  unfold in_order. induction 1 as [|x l S IH F0]; cbn [map]; constructor; auto.
  apply Forall_forall. intros p Hp. apply in_map_iff in Hp. destruct Hp as (j & <- & Hj).
  rewrite Forall_forall in F0. apply F0, Hj.
Qed.
Lemma ents_same s s' l : (forall j, In j l -> c_data (s_at s' j) = c_data (s_at s j)) -> map (ent s') l = map (ent s) l.
Proof. intros H. apply map_ext_in. intros j Hj. unfold ent. now rewrite H. Qed.

Lemma from_app i n : from i (S n) = i :: from (i + 1) n.
Proof. reflexivity. Qed.

(* --- add --- *)
Lemma add_R kd cl s m t F L d : R kd cl s m t F L ->
  exists r s' m' t' F' L', add_of key cmp kd d s = Val (r, s') /\
    sadd key cmp m d (match r with inl i => inl i | inr e => inr (refusal_of e) end) m' /\
    R kd cl s' m' t' F' L'.
Proof.
  intros H. pose proof (size_R _ _ _ _ _ _ _ H) as SZ. pose proof (r_wf _ _ _ _ _ _ _ H) as W.
  assert (FULL : F = [] -> exists r s' m' t' F' L', Val (inr OutOfSpace, s) = Val (r, s') /\
    sadd key cmp m d (match r with inl i => inl i | inr e => inr (refusal_of e) end) m' /\
    R kd cl s' m' t' F' L').
  { intros ->. exists (inr OutOfSpace), s, m, t, [], L. split; [reflexivity|]. split; [|exact H].
    apply sadd_full. rewrite SZ, (r_cap _ _ _ _ _ _ _ H). now apply (wf_free _ _ _ _ _ _ W). }
  assert (ROOM : F <> [] -> Spec.size m + a_lost m < a_cap m).
  { intros HF. rewrite SZ, (r_cap _ _ _ _ _ _ _ H). pose proof (len_cap_R _ _ _ _ _ _ _ H).
    assert (s_len s <> s_cap s) by (intros HH; apply HF, (wf_free _ _ _ _ _ _ W), HH). lia. }
  assert (FREE : forall i F' (s' : st), F = i :: F' -> s_cap s' = s_cap s -> s_len s' = s_len s + 1 -> cl = true ->
     F' = from (s_len s') (N.to_nat (s_cap s' - s_len s'))).
  { intros i F' s' -> Ec El Hcl. pose proof (r_free _ _ _ _ _ _ _ H Hcl) as Q.
    rewrite Ec, El. destruct (N.to_nat (s_cap s - s_len s)) as [|n] eqn:En; [discriminate Q|].
    cbn [from] in Q. injection Q as -> ->. f_equal. lia. }
  assert (DUP : forall s' i F', F = i :: F' -> dup key cmp s s' t F' L d i ->
    exists m' t' F' L', sadd key cmp m d (inr Present) m' /\ R kd cl s' m' t' F' L').
  { intros s' i F' HF (W' & Ec & DD & j & Hj & Ej).
    exists (mkMap (a_ents m) (a_lost m + 1) (a_cap m)), t, F', (i :: L). split.
    - eapply sadd_dup; [apply ROOM; rewrite HF; discriminate|]. eapply has_R; eauto.
    - constructor; cbn [a_ents a_lost a_cap].
      + exact W'.
      + rewrite (r_ents _ _ _ _ _ _ _ H). symmetry. apply ents_same. exact DD.
      + rewrite (r_lost _ _ _ _ _ _ _ H). cbn [length]. lia.
      + rewrite Ec. apply (r_cap _ _ _ _ _ _ _ H).
      + apply (r_black _ _ _ _ _ _ _ H).
      + intros Hcl. eapply FREE; eauto.
        rewrite (w_len _ _ _ _ _ _ W'), (w_len _ _ _ _ _ _ W). cbn [length]. lia.
      + apply (r_rb _ _ _ _ _ _ _ H). }
  assert (NEW : forall s' t' i F', F = i :: F' -> added key cmp s s' t t' F' L d i ->
    (kd = Red_black -> col t' = true) -> (cl = true -> kd = Red_black -> exists h, rb true h t') ->
    exists m' t' F' L', sadd key cmp m d (inl i) m' /\ R kd cl s' m' t' F' L').
  { intros s' t' i F' HF (W' & Ec & DD & Di & NE & a & b & Ea & Eb) HB HRB.
    exists (mkMap (map (ent s') (ino t')) (a_lost m) (a_cap m)), t', F', L. split.
    - apply sadd_new.
      + apply ROOM. rewrite HF. discriminate.
      + eapply lacks_R; eauto.
      + unfold slots. rewrite (r_ents _ _ _ _ _ _ _ H), map_map. cbn. rewrite map_id.
        intros Hi. apply In_cnt in Hi. pose proof (w_nd _ _ _ _ _ _ W i) as Q. rewrite HF in Q. cbn [app] in Q.
        rewrite cnt_cons, !cnt_app, dl_refl in Q. lia.
      + rewrite (r_cap _ _ _ _ _ _ _ H). apply (w_bnd _ _ _ _ _ _ W). rewrite HF. now left.
      + apply order_ents, (w_srt _ _ _ _ _ _ W').
      + rewrite Eb, map_app. cbn [map]. rewrite (r_ents _ _ _ _ _ _ _ H), Ea, map_app.
        assert (E1 : map (ent s') a = map (ent s) a).
        { apply ents_same. intros j Hj. apply DD. rewrite Ea. apply in_or_app. now left. }
        assert (E2 : map (ent s') b = map (ent s) b).
        { apply ents_same. intros j Hj. apply DD. rewrite Ea. apply in_or_app. now right. }
        rewrite E1, E2. unfold ent at 2. rewrite Di. symmetry. apply Permutation_middle.
    - constructor; cbn [a_ents a_lost a_cap]; auto.
      + apply (r_lost _ _ _ _ _ _ _ H).
      + rewrite Ec. apply (r_cap _ _ _ _ _ _ _ H).
      + intros Hcl. eapply FREE; eauto.
        rewrite (w_len _ _ _ _ _ _ W'), (w_len _ _ _ _ _ _ W), Ea, Eb, !app_length. cbn [length]. lia. }
  destruct kd; cbn [add_of].
  - destruct (rbt_add_ok key cmp TO s t F L d W (r_black _ _ _ _ _ _ _ H eq_refl)) as
      [[HF E1]|(i & F' & HF & [(s' & E1 & DP)|(s' & t' & E1 & AD & CT & RB)])]; rewrite E1.
    + apply FULL, HF.
    + destruct (DUP s' i F' HF DP) as (m' & t2 & F2 & L2 & A & B). exists (inr AlreadyExists), s', m', t2, F2, L2. auto.
    + destruct (NEW s' t' i F' HF AD) as (m' & t2 & F2 & L2 & A & B); auto.
      * intros Hcl _. destruct (r_rb _ _ _ _ _ _ _ H Hcl eq_refl) as [h Hh]. eauto.
      * exists (inl i), s', m', t2, F2, L2. auto.
  - destruct (bst_add_ok key cmp TO s t F L d W) as
      [[HF E1]|(i & F' & HF & [(s' & E1 & DP)|(s' & t' & E1 & AD)])]; rewrite E1.
    + apply FULL, HF.
    + destruct (DUP s' i F' HF DP) as (m' & t2 & F2 & L2 & A & B). exists (inr AlreadyExists), s', m', t2, F2, L2. auto.
    + destruct (NEW s' t' i F' HF AD) as (m' & t2 & F2 & L2 & A & B); try discriminate.
      exists (inl i), s', m', t2, F2, L2. auto.
Qed.

Lemma adds_R kd cl : forall ds s m t F L i, R kd cl s m t F L ->
  exists r s' m' t' F' L', add_all (add_of key cmp kd) ds i s = Val (r, s') /\
    sadds key cmp m ds i (match r with inl i => inl i | inr e => inr (refusal_of e) end) m' /\
    R kd cl s' m' t' F' L'.
Proof.
  induction ds as [|d ds IH]; intros s m t F L i H; cbn [add_all].
  - exists (inl i), s, m, t, F, L. split; [reflexivity|]. split; [constructor|exact H].
  - destruct (add_R kd cl s m t F L d H) as (r & s1 & m1 & t1 & F1 & L1 & E1 & A1 & H1).
    rewrite (st_run _ _ _ _ _ E1). destruct r as [j|e].
    + destruct (IH s1 m1 t1 F1 L1 j H1) as (r & s2 & m2 & t2 & F2 & L2 & E2 & A2 & H2).
      exists r, s2, m2, t2, F2, L2. split; [exact E2|]. split; [|exact H2]. econstructor; eauto.
    + exists (inr e), s1, m1, t1, F1, L1. split; [reflexivity|]. split; [|exact H1]. now apply sadds_stop.
Qed.

(* --- delete --- *)
Lemma remove_R kd cl s m t F L i : R kd cl s m t F L -> In i (ino t) ->
  exists s' m' t' F' L', mbind (remove_of kd i) (fun _ => mbind (storage_delete i) (fun _ => ret (@None cerr))) s = Val (None, s') /\
    sremove m i m' /\ R kd false s' m' t' F' L'.
Proof.
  intros H Hi. pose proof (r_wf _ _ _ _ _ _ _ H) as W.
  destruct (In_split_t t i Hi) as (C & c & l & r & Et).
  assert (I : Inv s (plug C (T c l i r))) by (rewrite <- Et; apply (w_inv _ _ _ _ _ _ W)).
  assert (RM : exists s1 t', remove_of kd i s = Val (tt, s1) /\ removed s s1 C l r t t' /\ (kd = Red_black -> col t' = true)).
  { destruct kd; cbn [remove_of].
    - destruct (rbt_remove_ok s C c l i r I) as (s1 & t' & A & B & C0).
      + rewrite <- Et. apply (r_black _ _ _ _ _ _ _ H eq_refl).
      + exists s1, t'. rewrite Et. auto.
    - destruct (bst_remove_ok s C c l i r I) as (s1 & t' & A & B).
      exists s1, t'. rewrite Et. split; [auto|]. split; [auto|discriminate]. }
  destruct RM as (s1 & t' & E1 & RM & CT).
  destruct (drop_ok key cmp s t F L C c l i r s1 t' W Et RM) as (s' & E2 & W' & Ec & DD & a & b & Ea & Eb).
  exists s', (mkMap (map (ent s') (ino t')) (a_lost m) (a_cap m)), t', (i :: F), L.
  split; [|split].
  - rewrite (st_run _ _ _ _ _ E1), (st_run _ _ _ _ _ E2). reflexivity.
  - exists (map (ent s) a), (c_data (s_at s i)), (map (ent s) b). split.
    + rewrite (r_ents _ _ _ _ _ _ _ H), Ea, map_app. reflexivity.
    + f_equal. rewrite Eb, map_app. f_equal; apply ents_same; intros; apply DD.
  - constructor; cbn [a_ents a_lost a_cap]; auto; try discriminate.
    + apply (r_lost _ _ _ _ _ _ _ H).
    + rewrite Ec. apply (r_cap _ _ _ _ _ _ _ H).
Qed.

Lemma weaken kd cl s m t F L : R kd cl s m t F L -> R kd false s m t F L.
Proof. intros []. constructor; auto; discriminate. Qed.

Lemma live_in kd cl s m t F L i k : R kd cl s m t F L -> get_idx key cmp k s = Val (Some i, s) ->
  In i (ino t) /\ cmp k (kdx s i) = Eq.
Proof.
  intros H HL. pose proof (r_wf _ _ _ _ _ _ _ H) as W.
  unfold get_idx in HL. rewrite (get_node_ok key cmp s t k (w_inv _ _ _ _ _ _ W)) in HL.
  injection HL as HL. pose proof (find_t_ok key cmp TO s k t (w_srt _ _ _ _ _ _ W)) as Q. rewrite HL in Q. exact Q.
Qed.

Lemma neighbour_next kd cl s m t F L C c l i r : R kd cl s m t F L -> t = plug C (T c l i r) ->
  exists p, hd_error (ino r ++ rpart C) = ith p /\ (forall j, ith p = Some j -> j < s_cap s /\ elem p = Some (c_data (s_at s j))) /\
    neighbour m i true p.
Proof.
  intros H Et. exists (hd_error (map (ent s) (ino r ++ rpart C))). split; [|split].
  - destruct (ino r ++ rpart C); reflexivity.
  - intros j Hj. destruct (ino r ++ rpart C) as [|y ys] eqn:El; [discriminate|]. cbn in Hj. injection Hj as <-.
    split; [|reflexivity]. apply (i_bnd _ _ (w_inv _ _ _ _ _ _ (r_wf _ _ _ _ _ _ _ H))).
    apply In_cnt. rewrite Et, ino_plug. cbn [ino]. apply in_or_app. right. rewrite <- app_assoc. apply in_or_app. right.
    cbn [app]. right. rewrite El. now left.
  - exists (map (ent s) (lpart C ++ ino l)), (c_data (s_at s i)), (map (ent s) (ino r ++ rpart C)). split; [|reflexivity].
    rewrite (r_ents _ _ _ _ _ _ _ H), Et, ino_plug. cbn [ino].
    rewrite !map_app; cbn [map]; rewrite ?map_app, <- ?app_assoc; cbn [app]; rewrite <- ?app_assoc. reflexivity.
Qed.
Lemma neighbour_prev kd cl s m t F L C c l i r : R kd cl s m t F L -> t = plug C (T c l i r) ->
  exists p, hd_error (rev (lpart C ++ ino l)) = ith p /\ (forall j, ith p = Some j -> j < s_cap s /\ elem p = Some (c_data (s_at s j))) /\
    neighbour m i false p.
Proof.
  intros H Et. exists (hd_error (rev (map (ent s) (lpart C ++ ino l)))). rewrite <- map_rev.
  split; [|split].
  - destruct (rev (lpart C ++ ino l)); reflexivity.
  - intros j Hj. destruct (rev (lpart C ++ ino l)) as [|y ys] eqn:El; [discriminate|]. cbn in Hj. injection Hj as <-.
    split; [|reflexivity]. apply (i_bnd _ _ (w_inv _ _ _ _ _ _ (r_wf _ _ _ _ _ _ _ H))).
    apply In_cnt. rewrite Et, ino_plug. cbn [ino].
    assert (Hy : In y (lpart C ++ ino l)) by (apply in_rev; rewrite El; now left).
    apply in_app_or in Hy. apply in_or_app. destruct Hy as [Hy|Hy]; [now left|right].
    rewrite <- app_assoc. apply in_or_app. now left.
  - exists (map (ent s) (lpart C ++ ino l)), (c_data (s_at s i)), (map (ent s) (ino r ++ rpart C)).
    rewrite <- map_rev. split; [|reflexivity].
    rewrite (r_ents _ _ _ _ _ _ _ H), Et, ino_plug. cbn [ino].
    rewrite !map_app; cbn [map]; rewrite ?map_app, <- ?app_assoc; cbn [app]; rewrite <- ?app_assoc. reflexivity.
Qed.

Lemma opt_data_ok (s : st) p : (forall j, ith p = Some j -> j < s_cap s /\ elem p = Some (c_data (s_at s j))) ->
  opt_data (ith p) s = Val (elem p, s).
Proof.
  intros H. destruct p as [[j d]|]; cbn [ith elem option_map fst snd] in *; [|reflexivity].
  destruct (H j eq_refl) as [Hj E0]. cbn [opt_data]. unfold get_with_idx.
  destruct (N.ltb_spec j (s_cap s)); [|lia]. rewrite E0. reflexivity.
Qed.

Lemma op_R kd cl s m t F L o : R kd cl s m t F L -> legal key cmp s o ->
  exists r s' m' t' F' L', run_op key cmp kd o s = Val (r, s') /\ sstep key cmp m o r m' /\
    R kd (cl && negb (deletes o)) s' m' t' F' L'.
Proof.
  intros H HL. pose proof (r_wf _ _ _ _ _ _ _ H) as W. pose proof (w_inv _ _ _ _ _ _ W) as I.
  assert (SAME : forall r, run_op key cmp kd o s = Val (r, s) -> sstep key cmp m o r m -> deletes o = false ->
    exists r s' m' t' F' L', run_op key cmp kd o s = Val (r, s') /\ sstep key cmp m o r m' /\
    R kd (cl && negb (deletes o)) s' m' t' F' L').
  { intros r A B C. exists r, s, m, t, F, L. rewrite C. cbn [negb]. rewrite andb_true_r. auto. }
  assert (FIND : forall k, (exists i, get_node key cmp k s = Val (Some i, s) /\ In i (ino t) /\ cmp k (kdx s i) = Eq) \/
    (get_node key cmp k s = Val (None, s) /\ lacks key cmp m k)).
  { intros k. pose proof (get_node_ok key cmp s t k I) as Q.
    pose proof (find_t_ok key cmp TO s k t (w_srt _ _ _ _ _ _ W)) as P.
    destruct (find_t key cmp s k t) as [i|].
    - left. exists i. tauto.
    - right. split; auto. eapply lacks_R; eauto. }
  assert (BND : forall i, In i (ino t) -> i < s_cap s).
  { intros i Hi. apply (i_bnd _ _ I). now apply In_cnt. }
  assert (FST : forall l, exists p, hd_error (map (ent s) l) = p /\ hd_error l = ith p /\
    (incl l (ino t) -> forall j, ith p = Some j -> j < s_cap s /\ elem p = Some (c_data (s_at s j)))).
  { intros l. eexists. split; [reflexivity|]. destruct l as [|x l]; cbn; split; auto; try discriminate.
    intros Hin j E0. injection E0 as <-. split; auto. apply BND, Hin. now left. }
  destruct o; cbn [run_op legal deletes negb] in *; unfold then_reply in *.
  - (* Add *)
    destruct (add_R kd cl s m t F L d H) as (r & s1 & m1 & t1 & F1 & L1 & E1 & A1 & H1).
    rewrite (st_run _ _ _ _ _ E1). rewrite andb_true_r. exists (slot_reply r), s1, m1, t1, F1, L1.
    split; [reflexivity|]. split; [|exact H1]. now apply on_add.
  - (* AddMany *)
    rewrite andb_true_r. pose proof (size_R _ _ _ _ _ _ _ H) as SZ. pose proof (r_cap _ _ _ _ _ _ _ H) as CP.
    destruct (N.ltb_spec (s_cap s) (s_len s + N.of_nat (length ds))) as [Hlt|Hge].
    + assert (E1 : add_many (add_of key cmp kd) ds s = Val (inr OutOfSpace, s)).
      { unfold add_many. apply N.ltb_lt in Hlt. now rewrite Hlt. }
      rewrite (st_run _ _ _ _ _ E1). eexists _, s, m, t, F, L. split; [reflexivity|]. split; [|exact H].
      apply on_add_many_no. lia.
    + destruct (adds_R kd cl ds s m t F L 0 H) as (r & s1 & m1 & t1 & F1 & L1 & E1 & A1 & H1).
      assert (E1' : add_many (add_of key cmp kd) ds s = Val (r, s1)).
      { unfold add_many. apply N.ltb_ge in Hge. now rewrite Hge. }
      rewrite (st_run _ _ _ _ _ E1'). exists (slot_reply r), s1, m1, t1, F1, L1. split; [reflexivity|].
      split; [|exact H1]. apply on_add_many; [lia|exact A1].
  - (* Delete *)
    rewrite andb_false_r. unfold delete_by. rewrite st_bind.
    destruct (FIND k) as [(i & E1 & Hi & Ek)|[E1 HN]]; rewrite (st_run _ _ _ _ _ E1).
    + destruct (remove_R kd cl s m t F L i H Hi) as (s' & m' & t' & F' & L' & E2 & A2 & H2).
      rewrite (st_run _ _ _ _ _ E2). eexists _, s', m', t', F', L'. split; [reflexivity|]. split; [|exact H2].
      eapply on_delete; [|exact A2]. eapply has_R; eauto.
    + eexists _, s, m, t, F, L. split; [reflexivity|]. split; [|eapply weaken, H]. now apply on_delete_no.
  - (* DeleteIdx *)
    rewrite andb_false_r. destruct HL as [k HL]. destruct (live_in _ _ _ _ _ _ _ _ _ H HL) as [Hi _].
    destruct (remove_R kd cl s m t F L i H Hi) as (s' & m' & t' & F' & L' & E2 & A2 & H2).
    assert (E2' : delete_idx_by (remove_of kd) i s = Val (None, s')).
    { unfold delete_idx_by. pose proof (BND i Hi) as Q. apply N.ltb_lt in Q. rewrite Q. exact E2. }
    rewrite (st_run _ _ _ _ _ E2'). eexists _, s', m', t', F', L'. split; [reflexivity|]. split; [|exact H2].
    now apply on_delete_idx.
  - (* Get *)
    destruct (FIND k) as [(i & E1 & Hi & Ek)|[E1 HN]].
    + eapply SAME; auto.
      * unfold get. rewrite st_bind, (st_run _ _ _ _ _ E1), st_bind, st_data by auto. reflexivity.
      * eapply on_get, has_R; eauto.
    + eapply SAME; auto.
      * unfold get. rewrite st_bind, (st_run _ _ _ _ _ E1). reflexivity.
      * now apply on_get_no.
  - (* GetIdx *)
    destruct (FIND k) as [(i & E1 & Hi & Ek)|[E1 HN]]; (eapply SAME; auto;
      [unfold get_idx; rewrite (st_run _ _ _ _ _ E1); reflexivity|]).
    + eapply on_get_idx, has_R; eauto.
    + now apply on_get_idx_no.
  - (* GetWithIdx *)
    destruct HL as [k HL]. destruct (live_in _ _ _ _ _ _ _ _ _ H HL) as [Hi _].
    eapply SAME; auto.
    + unfold get_with_idx, mbind. pose proof (BND i Hi) as Q. apply N.ltb_lt in Q. rewrite Q. reflexivity.
    + apply on_get_with_idx. rewrite (r_ents _ _ _ _ _ _ _ H). now apply in_ents.
  - (* SetWithIdx *)
    rewrite andb_true_r. destruct HL as [k [HL Hk]]. destruct (live_in _ _ _ _ _ _ _ _ _ H HL) as [Hi Ek].
    set (s' := upds s i (fun c => with_data c d)).
    assert (E1 : set_with_idx i d s = Val (true, s')).
    { unfold set_with_idx. pose proof (BND i Hi) as Q. apply N.ltb_lt in Q. now rewrite Q. }
    rewrite (st_run _ _ _ _ _ E1).
    apply in_split in Hi. destruct Hi as (a & b & Eab).
    assert (NI : forall j, In j (a ++ b) -> j <> i).
    { intros j Hj ->. apply In_cnt in Hj. rewrite cnt_app in Hj. pose proof (i_nd _ _ I i) as Q.
      rewrite Eab, cnt_app, cnt_cons, dl_refl in Q. lia. }
    assert (LK : forall j, c_color (s_at s' j) = c_color (s_at s j) /\ c_parent (s_at s' j) = c_parent (s_at s j) /\
       c_left (s_at s' j) = c_left (s_at s j) /\ c_right (s_at s' j) = c_right (s_at s j)).
    { intros j. cbn. unfold upd. destruct (j =? i); cbn; auto. }
    assert (REP : forall t par, rep (s_at s) par t -> rep (s_at s') par t).
    { clear - LK. induction t as [|c l IHl j r IHr]; cbn [rep]; auto. intros par (A & B & C & D0 & E0 & F0).
      destruct (LK j) as (Q1 & Q2 & Q3 & Q4). rewrite Q1, Q2, Q3, Q4. auto 10. }
    assert (KDX : forall j, j <> i -> kdx s' j = kdx s j).
    { intros j Hj. unfold Lookup.kd, s'. now rewrite at_diff. }
    assert (KDI : kdx s' i = key d) by (unfold Lookup.kd, s'; now rewrite at_same).
    assert (KK : cmp (key d) (kdx s i) = Eq).
    { rewrite <- (to_eq _ TO _ _ _ Hk). exact Ek. }
    assert (S2 : srt s' (ino t)).
    { pose proof (w_srt _ _ _ _ _ _ W) as S. rewrite Eab in S |- *. apply srt_app in S. destruct S as (Sa & Sb & AB).
      apply srt_cons in Sb. destruct Sb as [Sb IB]. 
      assert (DA : forall j, In j (a ++ b) -> c_data (s_at s' j) = c_data (s_at s j)).
      { intros j Hj. unfold s'. rewrite at_diff by auto. reflexivity. }
      assert (CI : forall j, In j b -> cmp (kdx s' i) (kdx s' j) = Lt).
      { intros j Hj. rewrite KDI, KDX by (apply NI, in_or_app; now right).
        rewrite (to_eq _ TO _ _ _ KK). auto. }
      apply srt_app. split; [|split].
      - eapply srt_ext; [|exact Sa]. intros; apply DA, in_or_app; now left.
      - apply srt_cons. split; [|exact CI]. eapply srt_ext; [|exact Sb]. intros; apply DA, in_or_app; now right.
      - intros x y Hx [<-|Hy].
        + rewrite KDI, (KDX x) by (apply NI, in_or_app; now left).
          assert (Q : cmp (kdx s x) (kdx s i) = Lt) by (apply AB; auto; now left).
          rewrite (to_opp _ TO), (to_eq _ TO _ _ _ KK), <- (to_opp _ TO). exact Q.
        + rewrite (KDX x), (KDX y) by (apply NI, in_or_app; auto). apply AB; auto. now right. }
    exists (RBool true), s', (mkMap (map (ent s') (ino t)) (a_lost m) (a_cap m)), t, F, L.
    split; [reflexivity|]. split.
    + assert (EM : map (ent s') (ino t) = map (ent s) a ++ (i, d) :: map (ent s) b).
      { rewrite Eab, map_app. cbn [map]. f_equal; [|f_equal].
        - apply ents_same. intros j Hj. unfold s'. rewrite at_diff; [reflexivity|]. apply NI, in_or_app; now left.
        - unfold ent, s'. now rewrite at_same.
        - apply ents_same. intros j Hj. unfold s'. rewrite at_diff; [reflexivity|]. apply NI, in_or_app; now right. }
      rewrite EM. eapply on_set_with_idx. rewrite (r_ents _ _ _ _ _ _ _ H), Eab, map_app. reflexivity.
    + destruct W as [I0 CH ND BD TT LL SS WL]. constructor; cbn [a_ents a_lost a_cap].
      * constructor; auto.
        -- destruct I0 as [R0 ND0 BD0 RT0]. constructor; auto.
        -- eapply chain_frame; [|exact CH]. intros j _. apply LK.
        -- intros z Hz. destruct (LK z) as (Q1 & Q2 & Q3 & Q4). rewrite Q2, Q3, Q4. auto.
      * reflexivity.
      * apply (r_lost _ _ _ _ _ _ _ H).
      * apply (r_cap _ _ _ _ _ _ _ H).
      * apply (r_black _ _ _ _ _ _ _ H).
      * apply (r_free _ _ _ _ _ _ _ H).
      * apply (r_rb _ _ _ _ _ _ _ H).
  - (* GetClosestIdx *)
    pose proof (closest_ok key cmp s t k I) as E1.
    destruct (close_t_ok key cmp TO s k t None (w_srt _ _ _ _ _ _ W)) as [(a & i & b & E2 & E3 & E4 & E5)|[E2 E3]];
      rewrite E2 in E1; (eapply SAME; auto; [rewrite (st_run _ _ _ _ _ E1); reflexivity|]).
    + eapply on_closest with (a := map (ent s) a) (b := map (ent s) b).
      * rewrite (r_ents _ _ _ _ _ _ _ H), E3, map_app. reflexivity.
      * exact E4.
      * intros j e Hj. apply in_map_iff in Hj. destruct Hj as (z & Ez & Hz). injection Ez as -> <-. apply E5, Hz.
    + apply on_closest_no. intros j e Hj. rewrite (r_ents _ _ _ _ _ _ _ H) in Hj. apply in_ents in Hj.
      destruct Hj as [Hj ->]. apply E3, Hj.
  - (* First *)
    destruct (FST (ino t)) as (p & E1 & E2 & E3). eapply SAME; auto.
    + unfold first. rewrite st_bind, (st_run _ _ _ _ _ (first_idx_ok s t I)), E2.
      rewrite (st_run _ _ _ _ _ (opt_data_ok s p (E3 (incl_refl _)))). reflexivity.
    + rewrite <- E1, <- (r_ents _ _ _ _ _ _ _ H). apply on_first.
  - (* Last *)
    destruct (FST (rev (ino t))) as (p & E1 & E2 & E3). eapply SAME; auto.
    + unfold last. rewrite st_bind, (st_run _ _ _ _ _ (last_idx_ok s t I)), E2.
      rewrite (st_run _ _ _ _ _ (opt_data_ok s p (E3 (fun j Hj => proj2 (in_rev _ _) Hj)))). reflexivity.
    + rewrite <- E1, map_rev, <- (r_ents _ _ _ _ _ _ _ H). apply on_last.
  - (* FirstIdx *)
    destruct (FST (ino t)) as (p & E1 & E2 & E3). eapply SAME; auto.
    + rewrite (st_run _ _ _ _ _ (first_idx_ok s t I)), E2. reflexivity.
    + rewrite <- E1, <- (r_ents _ _ _ _ _ _ _ H). apply on_first_idx.
  - (* LastIdx *)
    destruct (FST (rev (ino t))) as (p & E1 & E2 & E3). eapply SAME; auto.
    + rewrite (st_run _ _ _ _ _ (last_idx_ok s t I)), E2. reflexivity.
    + rewrite <- E1, map_rev, <- (r_ents _ _ _ _ _ _ _ H). apply on_last_idx.
  - (* Next *)
    destruct (FIND (key d)) as [(i & E1 & Hi & Ek)|[E1 HN]].
    + destruct (In_split_t t i Hi) as (C & c & l & r & Et).
      assert (I' : Inv s (plug C (T c l i r))) by (rewrite <- Et; exact I).
      destruct (neighbour_next _ _ _ _ _ _ _ _ _ _ _ _ H Et) as (p & P1 & P2 & P3).
      eapply SAME; auto.
      * unfold next, get_idx. rewrite st_bind, (st_run _ _ _ _ _ E1), st_bind, (st_run _ _ _ _ _ (next_idx_ok s C c l i r I')), P1.
        rewrite (st_run _ _ _ _ _ (opt_data_ok s p P2)). reflexivity.
      * eapply on_next; [|exact P3]. eapply has_R; eauto.
    + eapply SAME; auto.
      * unfold next, get_idx. rewrite st_bind, (st_run _ _ _ _ _ E1). reflexivity.
      * now apply on_next_no.
  - (* Prev *)
    destruct (FIND (key d)) as [(i & E1 & Hi & Ek)|[E1 HN]].
    + destruct (In_split_t t i Hi) as (C & c & l & r & Et).
      assert (I' : Inv s (plug C (T c l i r))) by (rewrite <- Et; exact I).
      destruct (neighbour_prev _ _ _ _ _ _ _ _ _ _ _ _ H Et) as (p & P1 & P2 & P3).
      eapply SAME; auto.
      * unfold prev, get_idx. rewrite st_bind, (st_run _ _ _ _ _ E1), st_bind, (st_run _ _ _ _ _ (prev_idx_ok s C c l i r I')), P1.
        rewrite (st_run _ _ _ _ _ (opt_data_ok s p P2)). reflexivity.
      * eapply on_prev; [|exact P3]. eapply has_R; eauto.
    + eapply SAME; auto.
      * unfold prev, get_idx. rewrite st_bind, (st_run _ _ _ _ _ E1). reflexivity.
      * now apply on_prev_no.
  - (* NextIdx *)
    destruct HL as [k HL]. destruct (live_in _ _ _ _ _ _ _ _ _ H HL) as [Hi _].
    destruct (In_split_t t i Hi) as (C & c & l & r & Et).
    assert (I' : Inv s (plug C (T c l i r))) by (rewrite <- Et; exact I).
    destruct (neighbour_next _ _ _ _ _ _ _ _ _ _ _ _ H Et) as (p & P1 & P2 & P3).
    eapply SAME; auto.
    + rewrite (st_run _ _ _ _ _ (next_idx_ok s C c l i r I')), P1. reflexivity.
    + now apply on_next_idx.
  - (* PrevIdx *)
    destruct HL as [k HL]. destruct (live_in _ _ _ _ _ _ _ _ _ H HL) as [Hi _].
    destruct (In_split_t t i Hi) as (C & c & l & r & Et).
    assert (I' : Inv s (plug C (T c l i r))) by (rewrite <- Et; exact I).
    destruct (neighbour_prev _ _ _ _ _ _ _ _ _ _ _ _ H Et) as (p & P1 & P2 & P3).
    eapply SAME; auto.
    + rewrite (st_run _ _ _ _ _ (prev_idx_ok s C c l i r I')), P1. reflexivity.
    + now apply on_prev_idx.
  - (* Dfs *)
    eapply SAME; auto.
    + rewrite (st_run _ _ _ _ _ (dfs_ok s t I)). reflexivity.
    + assert (E1 : map (fun i => c_data (s_at s i)) (ino t) = map snd (a_ents m)).
      { rewrite (r_ents _ _ _ _ _ _ _ H), map_map. reflexivity. }
      rewrite E1. apply on_dfs.
  - (* Len *)
    eapply SAME; auto. unfold len. rewrite <- (size_R _ _ _ _ _ _ _ H). apply on_len.
  - (* Capacity *)
    eapply SAME; auto. unfold capacity. rewrite <- (r_cap _ _ _ _ _ _ _ H). apply on_capacity.
  - (* Height *)
    eapply SAME; auto.
    + rewrite (st_run _ _ _ _ _ (height_ok s t I)). reflexivity.
    + apply on_height.
Qed.

(* --- moving to another buffer --- *)
Lemma in_from : forall n i z, In z (from i n) <-> i <= z < i + N.of_nat n.
Proof. induction n as [|n IH]; intros i z; cbn [from In]; [lia|]. rewrite IH. lia. Qed.
Lemma from_length : forall n i, length (from i n) = n.
Proof. induction n as [|n IH]; intros i; cbn; auto. Qed.
Lemma from_nodup : forall n i, NoDup (from i n).
Proof.
  induction n as [|n IH]; intros i; cbn [from]; constructor; auto. rewrite in_from. lia.
Qed.

Lemma link_from_ok : forall n i (f : N -> @cell D),
  let g := link_from n i f in
  (forall j, j < i -> g j = f j) /\
  (forall j, i <= j < i + N.of_nat n -> c_right (g j) = Some (j + 1)) /\
  (c_right (g (i + N.of_nat n)) = c_right (f (i + N.of_nat n))).
Proof.
  induction n as [|n IH]; intros i f g; subst g; cbn [link_from].
  - split; [auto|]. split; [lia|reflexivity].
  - set (f' := upd (upd f i (fun c => with_right c (Some (i + 1)))) (i + 1) (fun c => with_left c (Some i))).
    specialize (IH (i + 1) f'). cbv zeta in IH. destruct IH as (A & B & C0). split; [|split].
    + intros j Hj. rewrite A by lia. unfold f', upd.
      destruct (N.eqb_spec j (i + 1)); [lia|]. destruct (N.eqb_spec j i); [lia|reflexivity].
    + intros j Hj. destruct (N.eq_dec j i) as [->|Hji].
      * rewrite A by lia. unfold f', upd. destruct (N.eqb_spec i (i + 1)); [lia|]. now rewrite N.eqb_refl.
      * apply B. lia.
    + replace (i + N.of_nat (S n)) with (i + 1 + N.of_nat n) by lia. rewrite C0.
      unfold f', upd. destruct (N.eqb_spec (i + 1 + N.of_nat n) (i + 1)).
      * cbn. destruct (N.eqb_spec (i + 1 + N.of_nat n) i); [lia|reflexivity].
      * destruct (N.eqb_spec (i + 1 + N.of_nat n) i); [lia|reflexivity].
Qed.
Lemma chain_from (f : N -> @cell D) : forall n i,
  (forall j, i <= j < i + N.of_nat n -> c_right (f j) = Some (j + 1)) -> c_right (f (i + N.of_nat n)) = None ->
  chain f (Some i) (from i (S n)).
Proof.
  induction n as [|n IH]; intros i A B; cbn [from chain].
  - split; auto. rewrite N.add_0_r in B. exact B.
  - split; auto. rewrite A by lia. apply IH.
    + intros j Hj. apply A. lia.
    + replace (i + 1 + N.of_nat n) with (i + N.of_nat (S n)) by lia. exact B.
Qed.
Lemma build_ok i cap (f : N -> @cell D) : i < cap -> c_right (f (cap - 1)) = None ->
  exists g, build_linked_list i cap f = Val g /\ (forall j, j < i -> g j = f j) /\
    chain g (Some i) (from i (N.to_nat (cap - i))).
Proof.
  intros Hi Hr. unfold build_linked_list. apply N.ltb_lt in Hi as Hi'. rewrite Hi'.
  eexists. split; [reflexivity|].
  destruct (link_from_ok (N.to_nat (cap - i - 1)) i f) as (A & B & C0). split; [exact A|].
  replace (N.to_nat (cap - i)) with (S (N.to_nat (cap - i - 1))) by lia.
  apply chain_from; [exact B|]. rewrite C0. replace (i + N.of_nat (N.to_nat (cap - i - 1))) with (cap - 1) by lia. exact Hr.
Qed.

Lemma copy_ok cap (old : N -> @cell D) : forall n i buf,
  (forall j, i <= j < i + N.of_nat n -> fits cap (c_left (old j)) = true /\ fits cap (c_right (old j)) = true /\ fits cap (c_parent (old j)) = true) ->
  exists g, copy_cells n i cap old buf = Val g /\
    (forall j, i <= j < i + N.of_nat n -> g j = old j) /\ (forall j, j < i \/ i + N.of_nat n <= j -> g j = buf j).
Proof.
  induction n as [|n IH]; intros i buf H; cbn [copy_cells].
  - exists buf. split; auto. split; auto. lia.
  - destruct (H i ltac:(lia)) as (F1 & F2 & F3). rewrite F1, F2, F3. cbn [andb].
    destruct (IH (i + 1) (copy_cell old buf i)) as (g & E1 & A & B). { intros j Hj. apply H. lia. }
    exists g. split; [exact E1|]. split.
    + intros j Hj. destruct (N.eq_dec j i) as [->|Hji].
      * rewrite B by lia. unfold copy_cell, upd. rewrite N.eqb_refl. now destruct (old i).
      * apply A. lia.
    + intros j Hj. rewrite B by lia. unfold copy_cell, upd. destruct (N.eqb_spec j i); [lia|reflexivity].
Qed.

Lemma rep_links (f : N -> @cell D) b : forall t par, rep f par t -> (forall z, In z (ino t) -> z < b) -> fits b par = true ->
  forall j, In j (ino t) -> fits b (c_left (f j)) = true /\ fits b (c_right (f j)) = true /\ fits b (c_parent (f j)) = true.
Proof.
  induction t as [|c l IHl i r IHr]; intros par H B P j Hj; cbn [rep ino] in *; [destruct Hj|].
  destruct H as (A1 & A2 & A3 & A4 & Rl & Rr).
  assert (Bi : i < b) by (apply B, in_or_app; right; now left).
  assert (Bl : forall z, In z (ino l) -> z < b) by (intros z Hz; apply B, in_or_app; now left).
  assert (Br : forall z, In z (ino r) -> z < b) by (intros z Hz; apply B, in_or_app; right; now right).
  assert (Pi : fits b (Some i) = true) by (cbn; now apply N.ltb_lt).
  assert (RO : forall t, (forall z, In z (ino t) -> z < b) -> fits b (root_of t) = true).
  { intros [|? ? z ?] Hz; [reflexivity|]. cbn [root_of fits]. apply N.ltb_lt, Hz. cbn. apply in_or_app. right. now left. }
  apply in_app_or in Hj. destruct Hj as [Hj|[<-|Hj]].
  - eapply IHl; eauto.
  - rewrite A2, A3, A4. auto.
  - eapply IHr; eauto.
Qed.

Lemma grow_R kd s m t F L cap raw : R kd true s m t F L -> s_len s < cap -> c_right (raw (cap - 1)) = None ->
  exists s' t' F' L', tree_resize cap raw s = Val s' /\ R kd true s' (mkMap (a_ents m) (a_lost m) cap) t' F' L'.
Proof.
  intros H Hl Hr. pose proof (r_wf _ _ _ _ _ _ _ H) as W. pose proof (r_free _ _ _ _ _ _ _ H eq_refl) as HF.
  pose proof (len_cap_R _ _ _ _ _ _ _ H) as LC.
  destruct W as [I CH ND BD TT LL SS WL].
  unfold tree_resize. destruct (N.ltb_spec cap (s_len s)); [lia|].
  destruct (N.eqb_spec (s_cap s) 0) as [C0|C0].
  - assert (L0 : length (ino t) = 0%nat /\ length L = 0%nat) by lia.
    destruct L0 as [L1 L2]. apply length_zero_iff_nil in L1, L2. subst L.
    assert (E0 : t = E). { destruct t as [|c l i r]; auto. cbn in L1. destruct (ino l); discriminate. } subst t.
    assert (LZ : s_len s = 0) by (rewrite LL; reflexivity).
    destruct (build_ok 0 cap raw ltac:(lia) Hr) as (g & E1 & A & B). rewrite E1.
    exists (mkSt cap g (s_len s) (Some 0) (s_root s)), E, (from 0 (N.to_nat (cap - 0))), []. split; [reflexivity|].
    constructor; cbn [a_ents a_lost a_cap].
    + constructor; cbn [s_cap s_at s_len s_avail].
      * destruct I as [R0 ND0 BD0 RT0]. constructor; auto. intros z Hz. cbn in Hz. lia.
      * exact B.
      * rewrite !app_nil_r. apply nodup_NoDup. apply from_nodup.
      * intros z Hz. rewrite app_nil_r, in_from in Hz. lia.
      * rewrite from_length. cbn [length ino]. lia.
      * rewrite LL. reflexivity.
      * constructor.
      * intros z [].
    + rewrite (r_ents _ _ _ _ _ _ _ H). reflexivity.
    + apply (r_lost _ _ _ _ _ _ _ H).
    + reflexivity.
    + reflexivity.
    + intros _. cbn [s_len s_cap]. now rewrite LZ.
    + intros _ _. exists 0%nat. constructor.
  - assert (USED : forall z, In z (ino t) \/ In z L -> z < s_len s).
    { intros z Hz. destruct (N.lt_ge_cases z (s_len s)) as [|Hge]; auto. exfalso.
      assert (z < s_cap s).
      { destruct Hz as [Hz|Hz]; [apply (i_bnd _ _ I); now apply In_cnt|apply BD, in_or_app; now right]. }
      assert (In z F) by (rewrite HF; apply in_from; lia).
      apply In_cnt in H2. specialize (ND z). rewrite !cnt_app in ND.
      destruct Hz as [Hz|Hz]; apply In_cnt in Hz; lia. }
    assert (USED' : forall z, z < s_len s -> In z (ino t) \/ In z L).
    { intros z Hz. destruct (in_dec N.eq_dec z (ino t ++ L)) as [Hin|Hn]; [apply in_app_or, Hin|exfalso].
      assert (NoDup (z :: ino t ++ L)).
      { constructor; auto. apply nodup_NoDup. intros y. specialize (ND y). rewrite !cnt_app in ND. rewrite cnt_app. lia. }
      assert (Q := NoDup_incl_length H1 (l' := from 0 (N.to_nat (s_len s)))).
      rewrite from_length in Q. cbn [length] in Q. rewrite app_length in Q.
      assert (incl (z :: ino t ++ L) (from 0 (N.to_nat (s_len s)))).
      { intros y [<-|Hy]; apply in_from; [lia|]. apply in_app_or in Hy. specialize (USED y Hy). lia. }
      specialize (Q H2). lia. }
    assert (FITS : forall j, 0 <= j < 0 + N.of_nat (N.to_nat (s_len s)) ->
      fits cap (c_left (s_at s j)) = true /\ fits cap (c_right (s_at s j)) = true /\ fits cap (c_parent (s_at s j)) = true).
    { intros j Hj. destruct (USED' j ltac:(lia)) as [Hj'|Hj'].
      - eapply rep_links; [apply (i_rep _ _ I)| |reflexivity|exact Hj']. intros z Hz. specialize (USED z (or_introl Hz)). lia.
      - destruct (WL j Hj') as (Q1 & Q2 & Q3). rewrite Q1, Q2, Q3. auto. }
    destruct (copy_ok cap (s_at s) (N.to_nat (s_len s)) 0 raw FITS) as (buf & E1 & A & B). rewrite E1.
    assert (IDX : match s_avail s with Some a => a | None => s_len s end = s_len s).
    { rewrite HF in CH. destruct (N.to_nat (s_cap s - s_len s)); cbn [from chain] in CH.
      - now rewrite CH.
      - destruct CH as [-> _]. reflexivity. }
    rewrite IDX.
    destruct (build_ok (s_len s) cap buf Hl) as (g & E2 & A2 & B2). { rewrite B by lia. exact Hr. }
    rewrite E2.
    assert (RTC : forall r, s_root s = Some r -> r <? cap = true).
    { intros r Hr0. rewrite (i_root _ _ I) in Hr0. destruct t as [|c l i rr]; [discriminate|]. cbn in Hr0. injection Hr0 as <-.
      apply N.ltb_lt. assert (i < s_len s); [|lia]. apply USED. left. cbn. apply in_or_app. right. now left. }
    exists (mkSt cap g (s_len s) (Some (s_len s)) (s_root s)), t, (from (s_len s) (N.to_nat (cap - s_len s))), L.
    split. { destruct (s_root s) as [r|] eqn:Er; [rewrite (RTC r eq_refl)|]; reflexivity. }
    assert (SAME : forall j, In j (ino t) \/ In j L -> g j = s_at s j).
    { intros j Hj. specialize (USED j Hj). rewrite A2 by lia. apply A. lia. }
    constructor; cbn [a_ents a_lost a_cap].
    + constructor; cbn [s_cap s_at s_len s_avail].
      * destruct I as [R0 ND0 BD0 RT0]. constructor; auto.
        -- eapply rep_frame; [|exact R0]. intros j Hj. apply SAME. left. now apply In_cnt.
        -- intros z Hz. cbn. apply In_cnt in Hz. specialize (USED z (or_introl Hz)). lia.
      * exact B2.
      * intros z. rewrite !cnt_app. pose proof (ND z) as Q. rewrite !cnt_app in Q.
        pose proof (proj2 (nodup_NoDup _) (from_nodup (N.to_nat (cap - s_len s)) (s_len s)) z) as Q2.
        destruct (Nat.eq_dec (cnt z (from (s_len s) (N.to_nat (cap - s_len s)))) 0) as [Z|Z]; [lia|].
        assert (Hz : In z (from (s_len s) (N.to_nat (cap - s_len s)))) by (apply In_cnt; lia).
        apply in_from in Hz.
        assert (~ In z (ino t)) by (intros Hn; specialize (USED z (or_introl Hn)); lia).
        assert (~ In z L) by (intros Hn; specialize (USED z (or_intror Hn)); lia).
        rewrite In_cnt in *. lia.
      * intros z Hz. apply in_app_or in Hz. rewrite in_from in Hz. destruct Hz as [Hz|Hz]; [lia|].
        specialize (USED z (or_intror Hz)). lia.
      * rewrite from_length. lia.
      * exact LL.
      * eapply srt_ext; [|exact SS]. intros j Hj. cbn. rewrite SAME; auto.
      * intros z Hz. rewrite SAME by auto. apply WL, Hz.
    + rewrite (r_ents _ _ _ _ _ _ _ H). symmetry. apply ents_same. intros j Hj. cbn. rewrite SAME; auto.
    + apply (r_lost _ _ _ _ _ _ _ H).
    + reflexivity.
    + apply (r_black _ _ _ _ _ _ _ H).
    + reflexivity.
    + apply (r_rb _ _ _ _ _ _ _ H).
Qed.

Lemma run_R kd : forall cs cl s m t F L, R kd cl s m t F L -> legal_run key cmp kd cl s cs ->
  exists rs s' m' t' F' L', run key cmp kd cs s = Val (rs, s') /\ agrees key cmp m cs rs m' /\
    R kd (cl && forallb clean_cmd cs) s' m' t' F' L'.
Proof.
  induction cs as [|c cs IH]; intros cl s m t F L H HL; cbn [run].
  - exists [], s, m, t, F, L. split; [reflexivity|]. split; [constructor|]. cbn [forallb]. now rewrite andb_true_r.
  - cbn [legal_run] in HL. destruct HL as [HL HL2].
    destruct c as [o|cap raw]; cbn [run_cmd clean_cmd forallb] in *.
    + destruct (op_R kd cl s m t F L o H HL) as (r & s1 & m1 & t1 & F1 & L1 & E1 & A1 & H1).
      rewrite E1 in HL2. rewrite (st_run _ _ _ _ _ E1).
      destruct (IH _ s1 m1 t1 F1 L1 H1 HL2) as (rs & s2 & m2 & t2 & F2 & L2 & E2 & A2 & H2).
      rewrite (st_run _ _ _ _ _ E2). eexists _, s2, m2, t2, F2, L2. split; [reflexivity|]. split.
      * econstructor; eauto.
      * rewrite andb_assoc. exact H2.
    + destruct HL as (-> & Hl & Hr).
      destruct (grow_R kd s m t F L cap raw H Hl Hr) as (s1 & t1 & F1 & L1 & E1 & H1). rewrite E1 in HL2.
      destruct (IH _ s1 _ t1 F1 L1 H1 HL2) as (rs & s2 & m2 & t2 & F2 & L2 & E2 & A2 & H2).
      eexists _, s2, m2, t2, F2, L2. split; [|split].
      * unfold mbind at 1. rewrite E1. rewrite (st_run _ _ _ _ _ E2). reflexivity.
      * econstructor. exact A2.
      * exact H2.
Qed.

Lemma start_R kd s : starts s -> exists m t F L, m = fresh (s_cap s) /\ R kd true s m t F L.
Proof.
  intros [[raw ->]|(cap & raw & Hr & E1)].
  - exists (fresh 0), E, [], []. split; [reflexivity|]. constructor; try reflexivity.
    + constructor; cbn [s_cap s_at s_len s_avail tree_new].
      * constructor; try reflexivity; try exact I; intros z; try (intros Hz); cbn in *; lia.
      * reflexivity.
      * intros z. cbn. lia.
      * intros z [].
      * reflexivity.
      * reflexivity.
      * constructor.
      * intros z [].
    + intros _ _. exists 0%nat. constructor.
  - unfold tree_with_capacity in E1. destruct (N.ltb_spec 0 cap) as [Hc|Hc].
    + destruct (build_ok 0 cap raw Hc Hr) as (g & E2 & A & B). rewrite E2 in E1. injection E1 as <-.
      exists (fresh cap), E, (from 0 (N.to_nat (cap - 0))), []. split; [reflexivity|].
      constructor; try reflexivity.
      * constructor; cbn [s_cap s_at s_len s_avail].
        -- constructor; try reflexivity; try exact I; intros z; try (intros Hz); cbn in *; lia.
        -- exact B.
        -- rewrite !app_nil_r. apply nodup_NoDup, from_nodup.
        -- intros z Hz. rewrite app_nil_r, in_from in Hz. lia.
        -- rewrite from_length. cbn [length ino]. lia.
        -- reflexivity.
        -- constructor.
        -- intros z [].
      * intros _ _. exists 0%nat. constructor.
    + unfold build_linked_list in E1. apply N.ltb_ge in Hc. rewrite Hc in E1. discriminate.
Qed.

End Main.
