(** Invariance and exact effect of every event-service call. *)
From Coq Require Import Sorting.Sorted.
From Verif Require Import Base.Prelude Event.Model Event.Spec Event.Proofs.
Local Open Scope N_scope.
Notation get := em_get.

Section Inflight.
Context {ex : N -> nat}.
Notation ev_inv := (@evi ex).

(** ** Pending queue shrinking *)
Lemma sorted_suffix {A} (R : A -> A -> Prop) (a b : list A) : StronglySorted R (a ++ b) -> StronglySorted R b.
Proof. induction a as [|x a IH]; cbn; [auto|]. intros H. inversion H; subst. auto. Qed.

Lemma inv_set_pending d p : ev_inv d -> StronglySorted nb p ->
  (forall n, In n p -> In n (d_pending d)) ->
  (forall e, In e (d_events d) -> is_notify_signal (e_type e) = true -> cnt p (e_id e) = cnt (d_pending d) (e_id e)) ->
  ev_inv (set_pending d p).
Proof.
  intros I HS Hin Hc. constructor; cbn [set_pending d_events d_next d_pending d_tags]; try apply I; try assumption.
  - apply Forall_forall. intros n Hn. pose proof (iv_tags d I) as Q. rewrite Forall_forall in Q. auto.
  - apply Forall_forall. intros n Hn. pose proof (iv_pids d I) as Q. rewrite Forall_forall in Q. auto.
  - intros n e Hn. apply (iv_pend d I). auto.
  - intros e He Se. rewrite Hc by assumption. apply (iv_count d I); assumption.
Qed.

Lemma drop_closed_split es p : exists dead, p = dead ++ drop_closed es p /\
  Forall (fun n => get es (n_event n) = None) dead /\
  (forall n t, drop_closed es p = n :: t -> exists e, get es (n_event n) = Some e).
Proof.
  induction p as [|n p IH]; cbn [drop_closed].
  - exists []. repeat split; auto. intros; discriminate.
  - destruct (get es (n_event n)) as [e|] eqn:G.
    + exists []. repeat split; auto. intros n0 t0 E. injection E as -> _. eauto.
    + destruct IH as (dead & E & F & H). exists (n :: dead). cbn. rewrite <- E. repeat split; auto.
Qed.

Lemma cnt_app a b id : cnt (a ++ b) id = (cnt a id + cnt b id)%nat.
Proof. unfold cnt. rewrite filter_app, app_length. reflexivity. Qed.
Lemma cnt_cons n p id : cnt (n :: p) id = ((if (n_event n =? id)%N then 1 else 0) + cnt p id)%nat.
Proof. unfold cnt. cbn. destruct (n_event n =? id)%N; reflexivity. Qed.

Lemma cnt_dead es dead e : StronglySorted elt es -> Forall (fun n => get es (n_event n) = None) dead -> In e es -> cnt dead (e_id e) = 0%nat.
Proof.
  intros HS HF He. apply cnt_zero. apply not_true_iff_false. rewrite existsb_exists. intros (n & Hn & En). apply N.eqb_eq in En.
  rewrite Forall_forall in HF. specialize (HF n Hn). rewrite En, (In_get es e HS He) in HF. discriminate.
Qed.

Lemma consume_spec d tpl r d' : ev_inv d -> consume_next d tpl = (r, d') ->
  d_events d' = d_events d /\ same_frame d d' /\
  exists dead, Forall (fun n => get (d_events d) (n_event n) = None) dead /\
  match r with
  | Some n => d_pending d = dead ++ n :: d_pending d' /\ tpl < n_tpl n /\ (exists e, get (d_events d) (n_event n) = Some e)
  | None => d_pending d = dead ++ d_pending d' /\ (forall n, In n (d_pending d') -> n_tpl n <= tpl) /\ ev_inv d'
  end.
Proof.
  intros I E. unfold consume_next in E. destruct (drop_closed_split (d_events d) (d_pending d)) as (dead & E1 & F1 & H1).
  assert (KeepInv : ev_inv (set_pending d (drop_closed (d_events d) (d_pending d)))).
  { apply inv_set_pending; [exact I| | |].
    - apply (sorted_suffix nb dead). rewrite <- E1. apply (iv_psorted d I).
    - intros n Hn. rewrite E1. apply in_or_app. auto.
    - intros e He _. pose proof (f_equal (fun p => cnt p (e_id e)) E1) as Q. cbn beta in Q.
      rewrite cnt_app, (cnt_dead (d_events d) dead e (iv_sorted d I) F1 He) in Q. symmetry. exact Q. }
  destruct (drop_closed (d_events d) (d_pending d)) as [|n t] eqn:ED.
  - injection E as <- <-. split; [reflexivity|]. split; [unfold same_frame; cbn; auto|]. exists dead. split; [exact F1|]. split; [exact E1|].
    split; [intros ? []|exact KeepInv].
  - destruct (N.leb_spec (n_tpl n) tpl); injection E as <- <-; (split; [reflexivity|]); (split; [unfold same_frame; cbn; auto|]); exists dead; (split; [exact F1|]).
    + split; [exact E1|]. split; [|exact KeepInv]. pose proof (iv_psorted _ KeepInv) as HS. cbn in HS. inversion HS as [|? ? _ HF]; subst.
      rewrite Forall_forall in HF. cbn. intros m [<-|Hm]; [assumption|]. specialize (HF m Hm). apply nb_iff in HF. lia.
    + split; [exact E1|]. split; [assumption|]. eapply H1; reflexivity.
Qed.

(** ** Individual services *)
Lemma create_inv d ty tpl fn ctx g r d' : ev_inv d -> create_event d ty tpl fn ctx g = (r, d') ->
  ev_inv d' /\ d_next d <= d_next d' /\ d_dbg d' = d_dbg d /\ d_miss d' = d_miss d /\ d_pending d' = d_pending d /\
  (forall j, j <> d_next d -> get (d_events d') j = get (d_events d) j) /\
  match r with
  | Ok id => d_next d' = d_next d + 1 /\
      ((id = d_next d /\ get (d_events d') id = Some (MkE id ty g false tpl fn ctx None None) /\ d_rt d' = d_rt d /\
        event_new id ty tpl fn ctx g = Ok (MkE id ty g false tpl fn ctx None None)) \/
       (id = d_next d + RT_EVENT /\ d_events d' = d_events d /\ d_rt d' = d_rt d ++ [id]))
  | _ => d_events d' = d_events d /\ d_rt d' = d_rt d
  end.
Proof.
  intros I E. unfold create_event in E. pose proof (iv_next d I) as HN. destruct (N.eqb_spec (d_next d) RT_EVENT) as [NX|NX].
  { unfold debug_fail in E. destruct (d_dbg d) eqn:DB; injection E as <- <-; (split; [exact I|]); (split; [lia|]); cbn; auto 10. }
  set (rt := negb (N.land ty EVT_RUNTIME =? 0) || opt_eqb g (Some GROUP_VIRTUAL_ADDRESS_CHANGE)) in E.
  set (d1 := MkDb (d_dbg d) (d_events d) (d_next d + 1) (d_pending d) (d_tags d) (d_rt d) (d_miss d)) in E.
  assert (I1 : ev_inv d1).
  { constructor; cbn [d1 d_events d_next d_pending d_tags]; try apply I; try lia.
    - eapply Forall_impl; [|apply (iv_ids d I)]. cbn. intros; lia.
    - eapply Forall_impl; [|apply (iv_pids d I)]. cbn. intros; lia.
    - intros j Hj. apply (iv_ex d I). lia. }
  destruct rt.
  - destruct fn; injection E as <- <-.
    + split; [constructor; cbn; apply I1|]. cbn. split; [lia|]. auto 12.
    + split; [exact I1|]. cbn. split; [lia|]. auto 12.
  - destruct (event_new (d_next d) ty tpl fn ctx g) as [e|er|] eqn:EN; injection E as <- <-.
    2,3: split; [exact I1|]; cbn; (split; [lia|]); auto 12.
    assert (EE : e = MkE (d_next d) ty g false tpl fn ctx None None).
    { unfold event_new in EN. destruct (negb (event_type_ok ty)); [discriminate|].
      destruct (_ && _); [discriminate|]. destruct (_ && _) in EN; [discriminate|]. congruence. }
    assert (FA : Forall (fun x => e_id x < e_id e) (d_events d)).
    { subst e. cbn. eapply Forall_impl; [|apply (iv_ids d I)]. cbn. intros; lia. }
    assert (EI : em_insert (d_events d) e = d_events d ++ [e]) by (apply insert_last; exact FA).
    unfold set_events. rewrite EI. cbn [d1 d_dbg d_next d_pending d_tags d_rt d_miss d_events].
    split.
    { constructor; cbn [d_events d_next d_pending d_tags]; try apply I1.
      - pose proof (iv_sorted d I) as HS. clear -HS FA. induction HS as [|a es HS IH HF]; cbn; [repeat constructor|].
        inversion FA; subst. constructor; [apply IH; assumption|]. rewrite Forall_app. split; [exact HF|]. repeat constructor. assumption.
      - rewrite Forall_app. split; [apply I1|]. constructor; [|constructor]. subst e. cbn. lia.
      - intros n x Hn Gx. rewrite get_app in Gx by exact FA. pose proof (iv_pids d I) as Q. rewrite Forall_forall in Q. specialize (Q n Hn).
        destruct (N.eqb_spec (n_event n) (e_id e)) as [En|]; [subst e; cbn in En; lia|]. apply (iv_pend d I); auto.
      - intros x Hx Sx. apply in_app_or in Hx. destruct Hx as [Hx|[<-|[]]]; [apply (iv_count d I); assumption|].
        replace (e_signaled e) with false by (subst e; reflexivity).
        rewrite (iv_ex d I) by (subst e; apply N.le_refl). cbn [Nat.add]. apply cnt_zero. apply not_true_iff_false. rewrite existsb_exists.
        intros (n & Hn & En). apply N.eqb_eq in En. pose proof (iv_pids d I) as Q. rewrite Forall_forall in Q. specialize (Q n Hn).
        subst e. cbn in En. lia. }
    split; [lia|]. split; [reflexivity|]. split; [reflexivity|]. split; [reflexivity|]. split.
    { intros j Nj. rewrite get_app by exact FA. destruct (N.eqb_spec j (e_id e)) as [->|]; [subst e; cbn in Nj; lia|reflexivity]. }
    split; [reflexivity|]. left. split; [reflexivity|]. split; [|split; [reflexivity|congruence]].
    rewrite get_app by exact FA. subst e. cbn [e_id]. rewrite N.eqb_refl. reflexivity.
Qed.

Lemma close_inv d id r d' : ev_inv d -> close_event d id = (r, d') ->
  ev_inv d' /\ d_next d' = d_next d /\ d_dbg d' = d_dbg d /\ d_miss d' = d_miss d /\ d_pending d' = d_pending d /\
  (if RT_EVENT <=? id then r = Ok tt /\ d_events d' = d_events d
   else r = (match get (d_events d) id with Some _ => Ok tt | None => Err InvalidParameter end)
        /\ forall j, get (d_events d') j = if j =? id then None else get (d_events d) j).
Proof.
  intros I E. unfold close_event in E. destruct (RT_EVENT <=? id).
  - injection E as <- <-. split; [constructor; cbn; apply I|]. cbn. auto 10.
  - destruct (get (d_events d) id) as [e|] eqn:G; injection E as <- <-.
    2:{ repeat (split; [first [exact I|reflexivity]|]). intros j. destruct (N.eqb_spec j id); congruence. }
    split; [|cbn; repeat (split; [reflexivity|]); intros j; apply get_remove].
    constructor; cbn [set_events d_events d_next d_pending d_tags]; try apply I.
    + apply sorted_filter. apply I.
    + apply Forall_forall. intros x Hx. apply filter_In in Hx. pose proof (iv_ids d I) as Q. rewrite Forall_forall in Q. apply Q. tauto.
    + intros n x Hn Gx. rewrite get_remove in Gx. destruct (N.eqb_spec (n_event n) id); [discriminate|]. eapply (iv_pend d I); eauto.
    + intros x Hx. apply filter_In in Hx. apply (iv_count d I). tauto.
Qed.

(** Updates of one event that leave the queue alone. *)
Lemma inv_update_event d id f : ev_inv d -> same_shape f ->
  (forall e, get (d_events d) id = Some e -> is_notify_signal (e_type e) = true -> e_signaled (f e) = e_signaled e) ->
  ev_inv (set_events d (em_update (d_events d) id f)).
Proof.
  intros I Hf Hs. apply inv_update; try apply I; auto; [lia|]. intros e Ge Se. rewrite Hs by assumption.
  pose proof (get_In _ _ _ Ge) as [Hi <-]. apply (iv_count d I); assumption.
Qed.

Lemma queue_inv d id r d' : ev_inv d -> queue_event_notify d id = (r, d') ->
  (forall e, get (d_events d) id = Some e -> is_notify_signal (e_type e) = false) ->
  ev_inv d' /\ same_frame d d' /\ d_events d' = d_events d /\
  match get (d_events d) id with
  | None => r = Err InvalidParameter /\ d_pending d' = d_pending d
  | Some e => r = Ok tt /\
      (views d' = views d \/
       (is_notify_wait (e_type e) = true /\ views d' = enqueue (views d) (notice_for e)))
  end /\
  (forall e, get (d_events d) id = Some e -> is_notify_wait (e_type e) = true -> cnt (d_pending d) id = 0%nat ->
     views d' = enqueue (views d) (notice_for e)).
Proof.
  intros I E NS. unfold queue_event_notify in E. destruct (get (d_events d) id) as [e|] eqn:G.
  2:{ injection E as <- <-. split; [exact I|]. split; [apply frame_refl|]. split; [reflexivity|]. split; [auto|]. intros; discriminate. }
  injection E as <- <-. specialize (NS e eq_refl). unfold queue_notify_event. rewrite NS. cbn [orb].
  pose proof (get_In _ _ _ G) as [Hi Ei].
  assert (Bump : forall p, StronglySorted nb p -> Forall (fun n => n_tag n < d_tags d + 1) p ->
     (forall n, In n p -> In n (d_pending d) \/ (n_event n = id /\ notice_of n = notice_for e)) ->
     (forall x, In x (d_events d) -> is_notify_signal (e_type x) = true -> cnt p (e_id x) = cnt (d_pending d) (e_id x)) ->
     ev_inv (MkDb (d_dbg d) (d_events d) (d_next d) p (d_tags d + 1) (d_rt d) (d_miss d))).
  { intros p HS HT Hin Hc. constructor; cbn [d_events d_next d_pending d_tags]; try apply I; try assumption.
    - apply Forall_forall. intros n Hn. destruct (Hin n Hn) as [Ho|[Eo _]].
      + pose proof (iv_pids d I) as Q. rewrite Forall_forall in Q. auto.
      + rewrite Eo, <- Ei. pose proof (iv_ids d I) as Q. rewrite Forall_forall in Q. apply Q in Hi. lia.
    - intros n x Hn Gx. destruct (Hin n Hn) as [Ho|[Eo Vo]]; [eapply (iv_pend d I); eauto|]. rewrite Eo in Gx. congruence.
    - intros x Hx Sx. rewrite Hc by assumption. apply (iv_count d I); assumption. }
  assert (OldT : Forall (fun n => n_tag n < d_tags d + 1) (d_pending d)).
  { eapply Forall_impl; [|apply (iv_tags d I)]. cbn. intros; lia. }
  destruct (is_notify_wait (e_type e)) eqn:W.
  - unfold bump_tag, set_pending. cbn [d_dbg d_events d_next d_pending d_tags d_rt d_miss].
    unfold pending_insert. set (x := MkNt (e_id e) (e_tpl e) (e_fn e) (e_ctx e) (d_tags d)).
    destruct (existsb (fun y => n_event y =? n_event x) (d_pending d) && negb (d_miss d (n_tag x))) eqn:X.
    + split; [apply Bump; auto; apply I|]. split; [unfold same_frame; cbn; auto|]. split; [reflexivity|].
      split; [auto|]. intros e0 E0 _ C0. injection E0 as <-. apply andb_true_iff in X. destruct X as [X _].
      rewrite <- Ei in C0. apply cnt_zero in C0. cbn [n_event x] in X. congruence.
    + assert (HT : Forall (fun y => n_tag y < n_tag x) (d_pending d)) by apply (iv_tags d I).
      assert (VV : map notice_of (insert_ordered x (d_pending d)) = enqueue (views d) (notice_for e)).
      { rewrite insert_view; [reflexivity|apply (iv_psorted d I)|exact HT]. }
      split.
      { apply Bump.
        - apply insert_ordered_sorted; [apply I|exact HT].
        - apply Forall_forall. intros n Hn. apply insert_ordered_In in Hn. destruct Hn as [->|Hn]; [cbn; lia|].
          rewrite Forall_forall in OldT. auto.
        - intros n Hn. apply insert_ordered_In in Hn. destruct Hn as [->|Hn]; [right; split; [exact Ei|reflexivity]|auto].
        - intros y Hy Sy. rewrite cnt_insert. cbn [n_event x]. destruct (N.eqb_spec (e_id e) (e_id y)) as [Q|]; [|reflexivity].
          exfalso. pose proof (In_get _ _ (iv_sorted d I) Hy) as Gy. rewrite <- Q, Ei, G in Gy. injection Gy as ->. congruence. }
      split; [unfold same_frame; cbn; auto|]. split; [reflexivity|]. split; [|intros e0 E0 _ _; injection E0 as <-; exact VV].
      split; [reflexivity|]. right. split; [reflexivity|exact VV].
  - split; [apply Bump; auto; apply I|]. split; [unfold same_frame; cbn; auto|]. split; [reflexivity|]. split; [auto|].
    intros e0 E0 W0. injection E0 as <-. congruence.
Qed.

(** ** Timer ticks *)
Definition dueb (now : N) (e : event) : bool :=
  is_timer (e_type e) && match e_trigger e with Some t => t <=? now | None => false end.
Definition same_group (a b : event) : bool :=
  match e_group a with Some g => grp g b | None => false end.
Definition rearm (now : N) (e : event) : option N :=
  match e_period e with Some p => Some ((now + p) mod two64) | None => None end.

(** What an event looks like after the identifiers in [P] have been processed. *)
Definition kicked (now : N) (es : list event) (P : N -> bool) (e : event) : bool :=
  existsb (fun f => P (e_id f) && dueb now f && negb (e_signaled f) && same_group f e) es.
Definition ticked (now : N) (es : list event) (P : N -> bool) (e : event) : event :=
  MkE (e_id e) (e_type e) (e_group e) (e_signaled e || (P (e_id e) && dueb now e) || kicked now es P e)
      (e_tpl e) (e_fn e) (e_ctx e) (if P (e_id e) && dueb now e then rearm now e else e_trigger e) (e_period e).

Lemma ticked_none now es e : ticked now es (fun _ => false) e = e.
Proof.
  unfold ticked, kicked. cbn [andb].
  assert (existsb (fun _ : event => false) es = false) by (induction es; auto). rewrite H.
  rewrite !orb_false_r. destruct e; reflexivity.
Qed.

Lemma uadd_ok {E} dbg a b x : @uadd E dbg a b = Ok x -> a < two64 -> b < two64 -> x = (a + b) mod two64.
Proof.
  unfold uadd. intros H Ha Hb. destruct (N.ltb_spec (a + b) two64); [injection H as <-; symmetry; apply N.mod_small; assumption|].
  destruct dbg; [discriminate|]. congruence.
Qed.
Lemma uadd_ok' {E} dbg a b x : @uadd E dbg a b = Ok x -> x = (a + b) mod two64.
Proof.
  unfold uadd. intros H. destruct (N.ltb_spec (a + b) two64); [injection H as <-; symmetry; apply N.mod_small; assumption|].
  destruct dbg; [discriminate|]. congruence.
Qed.

(** The queue only grew, by enqueueing. *)
Definition grows (d d' : evdb) : Prop := exists xs, views d' = fold_left enqueue xs (views d).
Lemma grows_refl d : grows d d.
Proof. exists []. reflexivity. Qed.
Lemma grows_trans a b c : grows a b -> grows b c -> grows a c.
Proof. intros (x & A) (y & B). exists (x ++ y). rewrite fold_left_app, <- A. exact B. Qed.
Lemma grows_same a b : views b = views a -> grows a b.
Proof. intros H. exists []. exact H. Qed.
Lemma grows_queued a b es : views b = queued (views a) es -> grows a b.
Proof.
  unfold grows, queued. generalize (views a) as p. induction es as [|e es IH]; cbn [fold_left]; intros p H; [exists []; exact H|].
  apply IH in H. destruct H as (xs & H). destruct (signal_type e); [exists (notice_for e :: xs)|exists xs]; exact H.
Qed.

Definition tick_state now (d0 : evdb) (P : N -> bool) (d : evdb) : Prop :=
  ev_inv d /\ same_frame d0 d /\ map e_id (d_events d) = map e_id (d_events d0) /\
  (forall j, get (d_events d) j = option_map (ticked now (d_events d0) P) (get (d_events d0) j)) /\
  grows d0 d.

Lemma existsb_ext_in {A} (f g : A -> bool) l : (forall x, In x l -> f x = g x) -> existsb f l = existsb g l.
Proof. induction l as [|a l IH]; cbn; [auto|]. intros H. rewrite H, IH by (cbn; auto). reflexivity. Qed.

Lemma kicked_ext now es P Q e : (forall j, P j = Q j) -> kicked now es P e = kicked now es Q e.
Proof. intros H. apply existsb_ext_in. intros x _. rewrite H. reflexivity. Qed.
Lemma ticked_ext now es P Q e : (forall j, P j = Q j) -> ticked now es P e = ticked now es Q e.
Proof. intros H. unfold ticked. rewrite (kicked_ext now es P Q e H), H. reflexivity. Qed.

(** Adding one more identifier [k], whose event is [ek]. *)
Definition plus (P : N -> bool) (k : N) : N -> bool := fun j => (j =? k) || P j.

Lemma kicked_plus now es P k ek e : StronglySorted elt es -> get es k = Some ek -> P k = false ->
  kicked now es (plus P k) e = kicked now es P e || (dueb now ek && negb (e_signaled ek) && same_group ek e).
Proof.
  intros HS Gk Pk. unfold kicked. pose proof (get_In _ _ _ Gk) as [Hi Ei].
  apply eq_true_iff_eq. rewrite orb_true_iff, !existsb_exists. split.
  - intros (f & Hf & H). destruct (N.eqb_spec (e_id f) k) as [Ef|Nf].
    + right. pose proof (In_get _ _ HS Hf) as Gf. rewrite Ef, Gk in Gf. injection Gf as <-.
      rewrite !andb_true_iff in *. tauto.
    + left. exists f. split; [exact Hf|]. unfold plus in H. destruct (N.eqb_spec (e_id f) k); [congruence|]. exact H.
  - intros [(f & Hf & H)|H].
    + exists f. split; [exact Hf|]. unfold plus. rewrite !andb_true_iff in *. destruct H as (((A & B) & C) & D). rewrite A, orb_true_r. auto.
    + exists ek. split; [exact Hi|]. unfold plus. rewrite Ei, N.eqb_refl. exact H.
Qed.

Lemma same_group_sym a b : same_group a b = same_group b a.
Proof. unfold same_group, grp. destruct (e_group a), (e_group b); try reflexivity. apply N.eqb_sym. Qed.
Lemma same_group_trans a b c : same_group a b = true -> same_group b c = true -> same_group a c = true.
Proof.
  unfold same_group, grp. destruct (e_group a), (e_group b), (e_group c); try discriminate. rewrite !N.eqb_eq. congruence.
Qed.

Lemma tick_one_spec now d0 P d k d' : ev_inv d0 -> tick_state now d0 P d -> P k = false -> In k (map e_id (d_events d0)) ->
  tick_one now (Ok d) k = Ok d' -> tick_state now d0 (plus P k) d'.
Proof.
  intros I0 (I & F & EI & G & GR) Pk Hk E. cbn [tick_one bind] in E.
  pose proof (iv_sorted d0 I0) as HS0.
  assert (exists e0, get (d_events d0) k = Some e0) as (e0 & G0).
  { apply in_map_iff in Hk. destruct Hk as (x & <- & Hx). exists x. apply In_get; assumption. }
  pose proof (get_In _ _ _ G0) as [Hi0 Ei0].
  rewrite (G k), G0 in E. cbn [option_map] in E. set (e1 := ticked now (d_events d0) P e0) in *.
  assert (T1 : e_trigger e1 = e_trigger e0) by (unfold e1, ticked; cbn; rewrite Ei0, Pk; reflexivity).
  assert (S1 : e_signaled e1 = e_signaled e0 || kicked now (d_events d0) P e0).
  { unfold e1, ticked. cbn [e_signaled]. rewrite Ei0, Pk. cbn [andb]. rewrite orb_false_r. reflexivity. }
  rewrite T1 in E. change (e_type e1) with (e_type e0) in E. change (e_period e1) with (e_period e0) in E.
  destruct (dueb now e0) eqn:D.
  - (* due *)
    unfold dueb in D. destruct (e_trigger e0) as [t|] eqn:Et; [|rewrite andb_false_r in D; discriminate].
    rewrite D in E.
    assert (ET : exists d1, d1 = set_events d (em_update (d_events d) k (with_timer (rearm now e0) (e_period e0))) /\ Ok d' = @Ok efi_error evdb (snd (signal_event d1 k))).
    { unfold rearm. destruct (e_period e0) as [p|]; cbn [bind] in E; [|eauto].
      destruct (@uadd efi_error (d_dbg d) now p) as [x|er|] eqn:EU; cbn [bind] in E; try discriminate.
      apply uadd_ok' in EU. subst x. eauto. }
    clear E. destruct ET as (d1 & E1 & E2). injection E2 as ->.
    assert (I1 : ev_inv d1).
    { subst d1. apply inv_update_event; [exact I|apply shape_timer|]. intros. reflexivity. }
    assert (F1 : same_frame d0 d1) by (eapply frame_trans; [exact F|subst d1; unfold same_frame; cbn; auto]).
    assert (EI1 : map e_id (d_events d1) = map e_id (d_events d0)).
    { rewrite <- EI. subst d1. cbn. apply ids_update. intros; reflexivity. }
    assert (G1 : forall j, get (d_events d1) j =
       if j =? k then Some (with_timer (rearm now e0) (e_period e0) e1) else option_map (ticked now (d_events d0) P) (get (d_events d0) j)).
    { intros j. subst d1. cbn [set_events d_events]. rewrite get_update by (intros; reflexivity).
      rewrite (G k), G0. cbn [option_map]. destruct (j =? k); [reflexivity|apply G]. }
    set (e2 := with_timer (rearm now e0) (e_period e0) e1) in *.
    assert (G2 : get (d_events d1) k = Some e2) by (rewrite G1, N.eqb_refl; reflexivity).
    destruct (signal_event_spec d1 k e2 I1 G2) as (_ & IA & FA & EA & GA & VA).
    split; [exact IA|]. split; [eapply frame_trans; eauto|]. split; [congruence|].
    split; [|eapply grows_trans; [exact GR|]; eapply grows_trans; [|eapply grows_queued; exact VA]; apply grows_same; subst d1; reflexivity].
    intros j. rewrite GA, G1.
    assert (D0 : dueb now e0 = true) by (unfold dueb; rewrite Et; exact D).
    change (e_signaled e2) with (e_signaled e1). change (e_group e2) with (e_group e0).
    destruct (N.eqb_spec j k) as [->|Nj].
    + rewrite G0. cbn [option_map orb]. rewrite andb_true_r.
      assert (EV : ticked now (d_events d0) (plus P k) e0 = with_signaled true e2).
      { unfold ticked. rewrite Ei0. unfold plus at 1 3. rewrite N.eqb_refl. cbn [orb andb]. rewrite D0, orb_true_r. cbn [orb].
        unfold e2, with_timer, with_signaled, e1, ticked. cbn. rewrite Ei0. reflexivity. }
      rewrite EV. destruct (e_signaled e1) eqn:SE; cbn [negb]; [|reflexivity].
      f_equal. unfold with_signaled. change (e_signaled e1) with (e_signaled e2) in SE. destruct e2; cbn in SE |- *. rewrite SE. reflexivity.
    + destruct (get (d_events d0) j) as [x|] eqn:Gx; [|reflexivity]. cbn [option_map orb].
      pose proof (get_In _ _ _ Gx) as [Hix Eix].
      assert (GG : (match e_group e0 with Some g => grp g (ticked now (d_events d0) P x) | None => false end) = same_group e0 x) by reflexivity.
      rewrite GG.
      assert (EV : ticked now (d_events d0) (plus P k) x =
         MkE (e_id x) (e_type x) (e_group x)
           (e_signaled x || (P (e_id x) && dueb now x) || (kicked now (d_events d0) P x || (negb (e_signaled e0) && same_group e0 x)))
           (e_tpl x) (e_fn x) (e_ctx x) (if P (e_id x) && dueb now x then rearm now x else e_trigger x) (e_period x)).
      { unfold ticked. rewrite (kicked_plus now (d_events d0) P k e0 x HS0 G0 Pk), D0. cbn [andb].
        unfold plus. rewrite Eix. destruct (N.eqb_spec j k); [congruence|]. cbn [orb]. reflexivity. }
      rewrite EV. rewrite S1.
      destruct (e_signaled e0) eqn:SE0; cbn [negb orb andb].
      * unfold ticked. rewrite orb_false_r. reflexivity.
      * destruct (kicked now (d_events d0) P e0) eqn:K0; cbn [negb andb].
        -- (* already kicked by a group member: so is x if it is in the group *)
           unfold ticked. f_equal. f_equal.
           destruct (same_group e0 x) eqn:SGx; [|rewrite orb_false_r; reflexivity].
           assert (KX : kicked now (d_events d0) P x = true).
           { unfold kicked in *. apply existsb_exists in K0. destruct K0 as (f & Hf & H). apply existsb_exists. exists f. split; [exact Hf|].
             rewrite !andb_true_iff in *. destruct H as (((A & B) & C) & Q). repeat split; auto. eapply same_group_trans; eauto. }
           rewrite KX, !orb_true_r. reflexivity.
        -- destruct (same_group e0 x) eqn:SGx.
           ++ unfold with_signaled, ticked. cbn. rewrite !orb_true_r. reflexivity.
           ++ unfold ticked. rewrite orb_false_r. reflexivity.
  - (* not due *)
    assert (d' = d).
    { unfold dueb in D. destruct (e_trigger e0) as [t|]; [|congruence]. rewrite D in E. congruence. }
    subst d'. split; [exact I|]. split; [exact F|]. split; [exact EI|]. split; [|exact GR]. intros j. rewrite G.
    destruct (get (d_events d0) j) as [x|] eqn:Gx; [|reflexivity]. cbn [option_map]. f_equal.
    pose proof (get_In _ _ _ Gx) as [Hix Eix].
    unfold ticked. rewrite (kicked_plus now (d_events d0) P k e0 x HS0 G0 Pk), D. cbn [andb]. rewrite orb_false_r.
    unfold plus. destruct (N.eqb_spec (e_id x) k) as [Exk|]; [|reflexivity]. cbn [orb].
    assert (x = e0) by congruence. subst x. rewrite D, Exk, Pk. reflexivity.
Qed.

Lemma tick_fold_stuck now l r : (forall d, r <> Ok d) -> forall d, fold_left (tick_one now) l r <> Ok d.
Proof.
  revert r. induction l as [|k l IH]; intros r H d; cbn [fold_left]; [apply H|]. apply IH. intros d1.
  unfold tick_one. destruct r as [d2|e|]; [elim (H d2); reflexivity|discriminate|discriminate].
Qed.

Lemma tick_fold now d0 l : forall P d d', ev_inv d0 -> tick_state now d0 P d -> NoDup l ->
  (forall k, In k l -> P k = false /\ In k (map e_id (d_events d0))) ->
  fold_left (tick_one now) l (Ok d) = Ok d' ->
  tick_state now d0 (fun j => existsb (N.eqb j) l || P j) d'.
Proof.
  induction l as [|k l IH]; intros P d d' I0 T ND HL E; cbn [fold_left] in E.
  - injection E as <-. exact T.
  - inversion ND as [|? ? Nk NDl]; subst. destruct (tick_one now (Ok d) k) as [d1|e|] eqn:E1.
    2,3: exfalso; eapply tick_fold_stuck; [|exact E]; discriminate.
    destruct (HL k (or_introl eq_refl)) as [Pk Hk].
    pose proof (tick_one_spec now d0 P d k d1 I0 T Pk Hk E1) as T1.
    assert (HL1 : forall j, In j l -> plus P k j = false /\ In j (map e_id (d_events d0))).
    { intros j Hj. destruct (HL j (or_intror Hj)) as [Pj Hj']. split; [|exact Hj']. unfold plus. rewrite Pj.
      destruct (N.eqb_spec j k); [congruence|reflexivity]. }
    destruct (IH (plus P k) d1 d' I0 T1 NDl HL1 E) as (A & B & C & D & V).
    split; [exact A|]. split; [exact B|]. split; [exact C|]. split; [|exact V]. intros j. rewrite D. destruct (get (d_events d0) j); [|reflexivity].
    cbn [option_map]. f_equal. apply ticked_ext. intros i. unfold plus. cbn [existsb]. destruct (i =? k), (existsb (N.eqb i) l), (P i); reflexivity.
Qed.

Lemma tick_spec d now d' : ev_inv d -> db_timer_tick d now = Ok d' ->
  ev_inv d' /\ same_frame d d' /\ map e_id (d_events d') = map e_id (d_events d) /\
  (forall j, get (d_events d') j = option_map (ticked now (d_events d) (fun _ => true)) (get (d_events d) j)) /\ grows d d'.
Proof.
  intros I E. unfold db_timer_tick in E.
  assert (T0 : tick_state now d (fun _ => false) d).
  { split; [exact I|]. split; [apply frame_refl|]. split; [reflexivity|]. split; [|apply grows_refl]. intros j. destruct (get (d_events d) j); [|reflexivity].
    cbn. rewrite ticked_none. reflexivity. }
  assert (ND : NoDup (rev (map e_id (d_events d)))) by (apply NoDup_rev, sorted_NoDup, I).
  destruct (tick_fold now d _ (fun _ => false) d d' I T0 ND) as (A & B & C & D & V); [|exact E|].
  { intros k Hk. split; [reflexivity|]. apply in_rev. exact Hk. }
  split; [exact A|]. split; [exact B|]. split; [exact C|]. split; [|exact V]. intros j. rewrite D.
  destruct (get (d_events d) j) as [x|] eqn:Gx; [|reflexivity]. cbn [option_map]. f_equal.
  (* the processed set covers every event *)
  assert (Cov : forall f, In f (d_events d) -> existsb (N.eqb (e_id f)) (rev (map e_id (d_events d))) || false = true).
  { intros f Hf. rewrite orb_false_r. apply existsb_exists. exists (e_id f). split; [|apply N.eqb_refl].
    apply -> in_rev. apply in_map. exact Hf. }
  pose proof (get_In _ _ _ Gx) as [Hix _].
  unfold ticked. rewrite (Cov x Hix).
  assert (K : kicked now (d_events d) (fun j0 => existsb (N.eqb j0) (rev (map e_id (d_events d))) || false) x
            = kicked now (d_events d) (fun _ => true) x).
  { unfold kicked. apply existsb_ext_in. intros f Hf. rewrite (Cov f Hf). reflexivity. }
  rewrite K. reflexivity.
Qed.

Lemma tick_release_ok d now : ev_inv d -> d_dbg d = false -> exists d', db_timer_tick d now = Ok d'.
Proof.
  intros I DB. unfold db_timer_tick. generalize (rev (map e_id (d_events d))) as l. revert d I DB.
  intros d _ DB l. revert d DB. induction l as [|k l IH]; intros d DB; cbn [fold_left]; [eauto|].
  assert (exists d1, tick_one now (Ok d) k = Ok d1 /\ d_dbg d1 = false) as (d1 & E & D1).
  { cbn [tick_one bind]. destruct (get (d_events d) k) as [e|]; [|unfold debug_fail; rewrite DB; eauto].
    destruct (e_trigger e); [|eauto]. destruct (is_timer (e_type e) && _); [|eauto].
    assert (SD : forall d1 id, d_dbg (snd (signal_event d1 id)) = d_dbg d1).
    { intros d1 id. unfold signal_event. destruct (get (d_events d1) id); [|reflexivity]. destruct (e_signaled _); [reflexivity|].
      assert (SO : forall d2 x, d_dbg (signal_one d2 x) = d_dbg d2).
      { intros d2 x. unfold signal_one, queue_notify_event. destruct (is_notify_signal (e_type x)); [|reflexivity]. cbn [orb]. reflexivity. }
      destruct (e_group _); cbn [snd]; [|apply SO]. unfold signal_group. generalize (filter (fun e1 => in_group n0 e1 && negb (e_signaled e1)) (rev (d_events d1))).
      intros l0. revert d1. induction l0 as [|y l0 IH0]; intros d1; cbn [fold_left]; [reflexivity|]. rewrite IH0. apply SO. }
    destruct (e_period e) as [p|]; cbn [bind].
    - unfold uadd. destruct (now + p <? two64); [|rewrite DB]; cbn [bind]; eexists; split; try reflexivity; rewrite SD; exact DB.
    - eexists; split; [reflexivity|]. rewrite SD. exact DB. }
  rewrite E. apply IH. exact D1.
Qed.

(** ** Dispatch *)
Lemma dispatch_spec d tpl r d' : ev_inv d -> svc_dispatch d tpl = (r, d') ->
  ev_inv d' /\ same_frame d d' /\
  exists dead, Forall (fun n => get (d_events d) (n_event n) = None) dead /\
  match r with
  | RNotify (Some n) => d_pending d = dead ++ n :: d_pending d' /\ tpl < n_tpl n /\
      (exists e, get (d_events d) (n_event n) = Some e /\ notice_of n = notice_for e /\
         (forall j, get (d_events d') j = if j =? n_event n then Some (if is_notify_signal (e_type e) then with_signaled false e else e) else get (d_events d) j))
  | RNotify None => d_pending d = dead ++ d_pending d' /\ (forall n, In n (d_pending d') -> n_tpl n <= tpl) /\ d_events d' = d_events d
  | _ => False
  end.
Proof.
  intros I E. unfold svc_dispatch in E. destruct (consume_next d tpl) as [o d1] eqn:EC.
  destruct (consume_spec d tpl o d1 I EC) as (E1 & F1 & dead & FD & H).
  destruct o as [n|].
  - destruct H as (EP & LT & (e & Ge)). unfold get_event_type in E. rewrite E1, Ge in E. injection E as <- <-.
    pose proof (get_In _ _ _ Ge) as [Hi Ei].
    assert (VN : notice_of n = notice_for e).
    { apply (iv_pend d I n e); [rewrite EP; apply in_or_app; cbn; auto|exact Ge]. }
    assert (PS : StronglySorted nb (d_pending d1)).
    { apply (sorted_suffix nb (dead ++ [n])). rewrite <- app_assoc. cbn. rewrite <- EP. apply I. }
    assert (Hc : forall x, In x (d_events d) -> e_id x <> n_event n -> cnt (d_pending d1) (e_id x) = cnt (d_pending d) (e_id x)).
    { intros x Hx Nx. rewrite EP, cnt_app, cnt_cons, (cnt_dead (d_events d) dead x (iv_sorted d I) FD Hx).
      destruct (N.eqb_spec (n_event n) (e_id x)); [congruence|reflexivity]. }
    assert (Sub : forall m, In m (d_pending d1) -> In m (d_pending d)).
    { intros m Hm. rewrite EP. apply in_or_app. cbn. auto. }
    destruct (is_notify_signal (e_type e)) eqn:SG.
    + unfold clear_signal. rewrite E1, Ge. cbn [snd]. unfold set_events.
      destruct F1 as (Fa & Fb & Fc & Fd).
      assert (TG : d_tags d1 = d_tags d).
      { clear -EC. unfold consume_next in EC. destruct (drop_closed _ _); [|destruct (_ <=? _)]; injection EC as _ <-; reflexivity. }
      split; [|split; [unfold same_frame; cbn; auto|]].
      * rewrite Fa, Fb, Fc, Fd, TG. apply inv_update; try assumption; [apply shape_signaled| |lia|auto|auto|].
        -- apply Forall_forall. intros m Hm. pose proof (iv_tags d I) as Q. rewrite Forall_forall in Q. auto.
        -- intros e0 G0 _. assert (e0 = e) by congruence. subst e0. cbn.
           assert (C1 : cnt (d_pending d) (n_event n) = S (cnt (d_pending d1) (n_event n))).
           { rewrite EP, cnt_app, cnt_cons, N.eqb_refl. rewrite <- Ei. rewrite (cnt_dead (d_events d) dead e (iv_sorted d I) FD Hi). reflexivity. }
           pose proof (iv_count d I e Hi SG) as C2. rewrite Ei, C1 in C2. destruct (e_signaled e); lia.
      * exists dead. split; [exact FD|]. cbn [d_pending]. split; [exact EP|]. split; [exact LT|]. exists e. rewrite SG.
        split; [reflexivity|]. split; [exact VN|]. intros j. cbn [d_events]. rewrite get_update by (intros; reflexivity). rewrite Ge. reflexivity.
    + assert (DD : d1 = set_pending d (d_pending d1)).
      { clear -EC. unfold consume_next in EC. destruct (drop_closed _ _); [|destruct (_ <=? _)]; injection EC as _ <-; reflexivity. }
      split; [|split; [exact F1|]].
      * rewrite DD. apply inv_set_pending; auto. intros x Hx Sx. apply Hc; [exact Hx|]. intros Ex.
        pose proof (In_get _ _ (iv_sorted d I) Hx) as Gx. rewrite Ex, Ge in Gx. congruence.
      * exists dead. split; [exact FD|]. split; [exact EP|]. split; [exact LT|]. exists e. rewrite SG.
        split; [exact Ge|]. split; [exact VN|]. intros j. rewrite E1. destruct (N.eqb_spec j (n_event n)) as [->|]; [exact Ge|reflexivity].
  - injection E as <- <-. destruct H as (EP & LE & I1). split; [exact I1|]. split; [exact F1|]. exists dead. auto.
Qed.

(** ** Every step keeps the invariant *)
Lemma read_clear_inv d id r d' : ev_inv d -> (forall e, get (d_events d) id = Some e -> is_notify_signal (e_type e) = false) ->
  read_and_clear_signaled d id = (r, d') ->
  ev_inv d' /\ same_frame d d' /\ d_pending d' = d_pending d /\ r = Ok (is_signaled d id) /\
  forall j, get (d_events d') j = if j =? id then option_map (with_signaled false) (get (d_events d) id) else get (d_events d) j.
Proof.
  intros I NS E. unfold read_and_clear_signaled, is_signaled in *. destruct (get (d_events d) id) as [e|] eqn:G.
  - destruct (e_signaled e) eqn:SE.
    + unfold clear_signal in E. rewrite G in E. injection E as <- <-.
      split; [|split; [unfold same_frame; cbn; auto|]; split; [reflexivity|]; split; [reflexivity|]; intros j; cbn [set_events d_events]; rewrite get_update, G by (intros; reflexivity); reflexivity].
      apply inv_update_event; [exact I|apply shape_signaled|]. intros e0 G0 S0. assert (e0 = e) by congruence. subst.
      rewrite (NS e eq_refl) in S0. discriminate.
    + injection E as <- <-. split; [exact I|]. split; [apply frame_refl|]. split; [reflexivity|]. split; [reflexivity|].
      intros j. cbn [option_map]. destruct (N.eqb_spec j id) as [->|]; [|reflexivity]. rewrite G. f_equal. destruct e; cbn in *; subst; reflexivity.
  - injection E as <- <-. split; [exact I|]. split; [apply frame_refl|]. split; [reflexivity|]. split; [reflexivity|].
    intros j. cbn [option_map]. destruct (N.eqb_spec j id) as [->|]; [exact G|reflexivity].
Qed.

Lemma set_timer_inv d id k t p r d' : ev_inv d -> db_set_timer d id k t p = (r, d') ->
  ev_inv d' /\ same_frame d d' /\ d_pending d' = d_pending d /\
  match r with
  | Ok _ => exists e, get (d_events d) id = Some e /\ is_timer (e_type e) = true /\
      forall j, get (d_events d') j = if j =? id then Some (with_timer t p e) else get (d_events d) j
  | _ => d' = d
  end.
Proof.
  intros I E. unfold db_set_timer in E.
  assert (Same : forall r0, (Err r0, d) = (r, d') -> ev_inv d' /\ same_frame d d' /\ d_pending d' = d_pending d /\
     match r with Ok _ => exists e, get (d_events d) id = Some e /\ is_timer (e_type e) = true /\
        forall j, get (d_events d') j = if j =? id then Some (with_timer t p e) else get (d_events d) j | _ => d' = d end).
  { intros r0 Q. injection Q as <- <-. split; [exact I|]. split; [apply frame_refl|]. auto. }
  destruct (get (d_events d) id) as [e|] eqn:G; [|eapply Same; exact E].
  destruct (is_timer (e_type e)) eqn:IT; cbn [negb] in E; [|eapply Same; exact E].
  destruct (match k with TCancel => _ | TPeriodic => _ | TRelative => _ end); [eapply Same; exact E|].
  injection E as <- <-. split; [apply inv_update_event; [exact I|apply shape_timer|reflexivity]|].
  split; [unfold same_frame; cbn; auto|]. split; [reflexivity|]. exists e. split; [reflexivity|]. split; [exact IT|].
  intros j. cbn [set_events d_events]. rewrite get_update, G by (intros; reflexivity). reflexivity.
Qed.

Lemma step_inv s o out s' : ev_inv (s_db s) -> ev_step s o = (out, s') ->
  ev_inv (s_db s') /\ d_next (s_db s) <= d_next (s_db s') /\ d_dbg (s_db s') = d_dbg (s_db s).
Proof.
  intros I E. assert (FR : forall d', same_frame (s_db s) d' -> d_next (s_db s) <= d_next d' /\ d_dbg d' = d_dbg (s_db s)).
  { intros d' (A & B & _). split; [lia|exact A]. }
  destruct o; cbn [ev_step] in E.
  - destruct (svc_create (s_db s) ty tpl fn ctx) as [r d'] eqn:C. injection E as <- <-. cbn [s_db snd].
    unfold svc_create in C. destruct (ty =? _) in C; [|destruct (ty =? _) in C];
      destruct (create_inv _ _ _ _ _ _ _ _ I C) as (A & B & D & _); auto.
  - destruct (svc_create_ex (s_db s) ty tpl fn ctx group) as [r d'] eqn:C. injection E as <- <-. cbn [s_db snd].
    unfold svc_create_ex in C. destruct (_ || _) in C; [injection C as _ <-; (split; [exact I|split; [apply N.le_refl|reflexivity]])|].
    destruct (create_inv _ _ _ _ _ _ _ _ I C) as (A & B & D & _); auto.
  - destruct (close_event (s_db s) id) as [r d'] eqn:C. injection E as <- <-. cbn [s_db snd].
    destruct (close_inv _ _ _ _ I C) as (A & B & D & _). rewrite B. split; [exact A|]. split; [lia|exact D].
  - destruct (signal_event (s_db s) id) as [r d'] eqn:C. injection E as <- <-. cbn [s_db snd].
    destruct (get (d_events (s_db s)) id) as [e|] eqn:G.
    + destruct (signal_event_spec (s_db s) id e I G) as (_ & A & B & _). rewrite C in A, B. cbn in A, B. auto.
    + unfold signal_event in C. rewrite G in C. injection C as _ <-. split; [exact I|split; [apply N.le_refl|reflexivity]].
  - injection E as <- <-. cbn [s_db snd]. destruct (signal_group_spec (s_db s) g I) as (A & B & _). auto.
  - destruct (svc_poll (s_db s) id) as [r d'] eqn:C. injection E as <- <-. cbn [s_db snd]. unfold svc_poll, get_event_type in C.
    destruct (get (d_events (s_db s)) id) as [e|] eqn:G; [|injection C as _ <-; (split; [exact I|split; [apply N.le_refl|reflexivity]])].
    destruct (is_notify_signal (e_type e)) eqn:SG; [injection C as _ <-; (split; [exact I|split; [apply N.le_refl|reflexivity]])|].
    destruct (read_and_clear_signaled (s_db s) id) as [rr d1] eqn:RC.
    destruct (read_clear_inv (s_db s) id rr d1 I) as (I1 & F1 & P1 & R1 & G1); [intros e0 E0; congruence|exact RC|].
    subst rr. destruct (is_signaled (s_db s) id); [injection C as _ <-; destruct (FR _ F1); auto|].
    destruct (queue_event_notify d1 id) as [rq d2] eqn:Q.
    destruct (queue_inv d1 id rq d2 I1 Q) as (I2 & F2 & _).
    { intros e0 E0. rewrite G1, N.eqb_refl, G in E0. injection E0 as <-. exact SG. }
    destruct (FR d2 (frame_trans _ _ _ F1 F2)). destruct rq; injection C as _ <-; auto.
  - destruct (svc_read (s_db s) id) as [r d'] eqn:C. injection E as <- <-. cbn [s_db snd]. unfold svc_read, get_event_type in C.
    destruct (get (d_events (s_db s)) id) as [e|] eqn:G; [|injection C as _ <-; (split; [exact I|split; [apply N.le_refl|reflexivity]])].
    destruct (is_notify_signal (e_type e)) eqn:SG; [injection C as _ <-; (split; [exact I|split; [apply N.le_refl|reflexivity]])|].
    destruct (read_and_clear_signaled (s_db s) id) as [rr d1] eqn:RC.
    destruct (read_clear_inv (s_db s) id rr d1 I) as (I1 & F1 & P1 & R1 & G1); [intros e0 E0; congruence|exact RC|].
    destruct (FR _ F1). subst rr. destruct (is_signaled (s_db s) id); injection C as _ <-; auto.
  - destruct (svc_set_timer s id k time) as [r d'] eqn:C. injection E as <- <-. cbn [s_db snd].
    assert (H : forall t p r0 d0, db_set_timer (s_db s) id k t p = (r0, d0) -> ev_inv d0 /\ d_next (s_db s) <= d_next d0 /\ d_dbg d0 = d_dbg (s_db s)).
    { intros t p r0 d0 Q. destruct (set_timer_inv _ _ _ _ _ _ _ I Q) as (A & B & _). destruct (FR _ B). auto. }
    unfold svc_set_timer in C. destruct k.
    + destruct (db_set_timer (s_db s) id TCancel None None) eqn:Q; injection C as _ <-. eapply H; exact Q.
    + destruct (uadd _ _ _); try (injection C as _ <-; (split; [exact I|split; [apply N.le_refl|reflexivity]])).
      destruct (db_set_timer (s_db s) id TPeriodic _ _) eqn:Q; injection C as _ <-. eapply H; exact Q.
    + destruct (uadd _ _ _); try (injection C as _ <-; (split; [exact I|split; [apply N.le_refl|reflexivity]])).
      destruct (db_set_timer (s_db s) id TRelative _ _) eqn:Q; injection C as _ <-. eapply H; exact Q.
  - destruct (db_timer_tick (s_db s) _) as [d'|e|] eqn:T; injection E as <- <-; cbn [s_db]; try ((split; [exact I|split; [apply N.le_refl|reflexivity]])).
    destruct (tick_spec _ _ _ I T) as (A & B & _). destruct (FR _ B). auto.
  - destruct (svc_dispatch (s_db s) tpl) as [r d'] eqn:C. injection E as <- <-. cbn [s_db snd].
    destruct (dispatch_spec _ _ _ _ I C) as (A & B & _). destruct (FR _ B). auto.
Qed.

Lemma run_inv ops : forall s, ev_inv (s_db s) -> ev_inv (s_db (ev_run s ops)) /\ d_next (s_db s) <= d_next (s_db (ev_run s ops)) /\ d_dbg (s_db (ev_run s ops)) = d_dbg (s_db s).
Proof.
  induction ops as [|o ops IH]; intros s I; cbn [ev_run]; [split; [exact I|split; [apply N.le_refl|reflexivity]]|].
  destruct (ev_step s o) as [out s'] eqn:E. cbn [snd]. destruct (step_inv s o out s' I E) as (A & B & C).
  destruct (IH s' A) as (A' & B' & C'). split; [exact A'|]. split; [lia|congruence].
Qed.

(** A dead identifier stays dead. *)
Lemma step_dead s o out s' id : ev_inv (s_db s) -> ev_step s o = (out, s') -> id < d_next (s_db s) ->
  get (d_events (s_db s)) id = None -> get (d_events (s_db s')) id = None.
Proof.
  intros I E Hid Hn. destruct o; cbn [ev_step] in E.
  - destruct (svc_create (s_db s) ty tpl fn ctx) as [r d'] eqn:C. injection E as <- <-. cbn [s_db snd].
    unfold svc_create in C. destruct (ty =? _) in C; [|destruct (ty =? _) in C];
      destruct (create_inv _ _ _ _ _ _ _ _ I C) as (_ & _ & _ & _ & _ & H & _); rewrite H by lia; exact Hn.
  - destruct (svc_create_ex (s_db s) ty tpl fn ctx group) as [r d'] eqn:C. injection E as <- <-. cbn [s_db snd].
    unfold svc_create_ex in C. destruct (_ || _) in C; [injection C as _ <-; exact Hn|].
    destruct (create_inv _ _ _ _ _ _ _ _ I C) as (_ & _ & _ & _ & _ & H & _); rewrite H by lia; exact Hn.
  - destruct (close_event (s_db s) id0) as [r d'] eqn:C. injection E as <- <-. cbn [s_db snd].
    destruct (close_inv _ _ _ _ I C) as (_ & _ & _ & _ & _ & H). destruct (RT_EVENT <=? id0); [destruct H as [_ ->]; exact Hn|].
    destruct H as [_ ->]. destruct (id =? id0); auto.
  - destruct (signal_event (s_db s) id0) as [r d'] eqn:C. injection E as <- <-. cbn [s_db snd].
    destruct (get (d_events (s_db s)) id0) as [e|] eqn:G.
    + destruct (signal_event_spec (s_db s) id0 e I G) as (_ & _ & _ & _ & H & _). rewrite C in H. cbn [snd] in H. rewrite H, Hn. reflexivity.
    + unfold signal_event in C. rewrite G in C. injection C as _ <-. exact Hn.
  - injection E as <- <-. cbn [s_db snd]. destruct (signal_group_spec (s_db s) g I) as (_ & _ & _ & H & _). rewrite H, Hn. reflexivity.
  - destruct (svc_poll (s_db s) id0) as [r d'] eqn:C. injection E as <- <-. cbn [s_db snd]. unfold svc_poll, get_event_type in C.
    destruct (get (d_events (s_db s)) id0) as [e|] eqn:G; [|injection C as _ <-; exact Hn].
    destruct (is_notify_signal (e_type e)) eqn:SG; [injection C as _ <-; exact Hn|].
    destruct (read_and_clear_signaled (s_db s) id0) as [rr d1] eqn:RC.
    destruct (read_clear_inv (s_db s) id0 rr d1 I) as (I1 & F1 & P1 & R1 & G1); [intros e0 E0; congruence|exact RC|].
    assert (Hn1 : get (d_events d1) id = None).
    { rewrite G1. destruct (N.eqb_spec id id0); [congruence|exact Hn]. }
    subst rr. destruct (is_signaled (s_db s) id0); [injection C as _ <-; exact Hn1|].
    destruct (queue_event_notify d1 id0) as [rq d2] eqn:Q.
    destruct (queue_inv d1 id0 rq d2 I1 Q) as (I2 & F2 & E2 & _).
    { intros e0 E0. rewrite G1, N.eqb_refl, G in E0. injection E0 as <-. exact SG. }
    destruct rq; injection C as _ <-; rewrite E2; exact Hn1.
  - destruct (svc_read (s_db s) id0) as [r d'] eqn:C. injection E as <- <-. cbn [s_db snd]. unfold svc_read, get_event_type in C.
    destruct (get (d_events (s_db s)) id0) as [e|] eqn:G; [|injection C as _ <-; exact Hn].
    destruct (is_notify_signal (e_type e)) eqn:SG; [injection C as _ <-; exact Hn|].
    destruct (read_and_clear_signaled (s_db s) id0) as [rr d1] eqn:RC.
    destruct (read_clear_inv (s_db s) id0 rr d1 I) as (I1 & F1 & P1 & R1 & G1); [intros e0 E0; congruence|exact RC|].
    assert (Hn1 : get (d_events d1) id = None).
    { rewrite G1. destruct (N.eqb_spec id id0); [congruence|exact Hn]. }
    subst rr. destruct (is_signaled (s_db s) id0); injection C as _ <-; exact Hn1.
  - destruct (svc_set_timer s id0 k time) as [r d'] eqn:C. injection E as <- <-. cbn [s_db snd].
    assert (H : forall t p r0 d0, db_set_timer (s_db s) id0 k t p = (r0, d0) -> get (d_events d0) id = None).
    { intros t p r0 d0 Q. destruct (set_timer_inv _ _ _ _ _ _ _ I Q) as (_ & _ & _ & H). destruct r0; [|subst; exact Hn|subst; exact Hn].
      destruct H as (e & Ge & _ & H). rewrite H. destruct (N.eqb_spec id id0); [congruence|exact Hn]. }
    unfold svc_set_timer in C. destruct k.
    + destruct (db_set_timer (s_db s) id0 TCancel None None) eqn:Q; injection C as _ <-. eapply H; exact Q.
    + destruct (uadd _ _ _); try (injection C as _ <-; exact Hn).
      destruct (db_set_timer (s_db s) id0 TPeriodic _ _) eqn:Q; injection C as _ <-. eapply H; exact Q.
    + destruct (uadd _ _ _); try (injection C as _ <-; exact Hn).
      destruct (db_set_timer (s_db s) id0 TRelative _ _) eqn:Q; injection C as _ <-. eapply H; exact Q.
  - destruct (db_timer_tick (s_db s) _) as [d'|e|] eqn:T; injection E as <- <-; cbn [s_db]; try exact Hn.
    destruct (tick_spec _ _ _ I T) as (_ & _ & _ & H & _). rewrite H, Hn. reflexivity.
  - destruct (svc_dispatch (s_db s) tpl) as [r d'] eqn:C. injection E as <- <-. cbn [s_db snd].
    destruct (dispatch_spec _ _ _ _ I C) as (_ & _ & dead & _ & H). destruct r; try contradiction. destruct n as [n|].
    + destruct H as (_ & _ & e & Ge & _ & H). rewrite H. destruct (N.eqb_spec id (n_event n)); [congruence|exact Hn].
    + destruct H as (_ & _ & ->). exact Hn.
Qed.

Lemma run_dead ops : forall s id, ev_inv (s_db s) -> id < d_next (s_db s) ->
  get (d_events (s_db s)) id = None -> get (d_events (s_db (ev_run s ops))) id = None.
Proof.
  induction ops as [|o ops IH]; intros s id I Hid Hn; cbn [ev_run]; [exact Hn|].
  destruct (ev_step s o) as [out s'] eqn:E. cbn [snd]. destruct (step_inv s o out s' I E) as (A & B & _).
  apply IH; [exact A|lia|]. exact (step_dead s o out s' id I E Hid Hn).
Qed.

(** ** What one step does to one live event *)
Definition evolves (o : ev_op) (out : ev_out) (e e' : event) : Prop :=
  e_id e' = e_id e /\ e_type e' = e_type e /\ e_group e' = e_group e /\ e_tpl e' = e_tpl e /\ e_fn e' = e_fn e /\ e_ctx e' = e_ctx e /\
  (is_notify_signal (e_type e) = true ->
     (delivers out (e_id e) = true -> e_signaled e = true /\ e_signaled e' = false) /\
     (delivers out (e_id e) = false -> e_signaled e = true -> e_signaled e' = true)) /\
  (sets_timer o (e_id e) = false -> e_trigger e = None -> e_trigger e' = None).

Lemma evolves_same o out e : delivers out (e_id e) = false -> evolves o out e e.
Proof. intros H. unfold evolves. rewrite H. repeat (split; [reflexivity|]). split; [|auto]. intros _. split; [discriminate|auto]. Qed.

Lemma out_id_nodeliver r id : delivers (out_id r) id = false.
Proof. destruct r; reflexivity. Qed.
Lemma out_unit_nodeliver r id : delivers (out_unit r) id = false.
Proof. destruct r; reflexivity. Qed.

Lemma pend_live_signaled d n e dead rest : ev_inv d -> d_pending d = dead ++ n :: rest -> get (d_events d) (n_event n) = Some e ->
  is_notify_signal (e_type e) = true -> e_signaled e = true.
Proof.
  intros I EP Ge SG. pose proof (get_In _ _ _ Ge) as [Hi Ei]. pose proof (iv_count d I e Hi SG) as C.
  destruct (e_signaled e); [reflexivity|]. rewrite EP, cnt_app, cnt_cons, <- Ei, N.eqb_refl in C. lia.
Qed.

Lemma step_live s o out s' id e : ev_inv (s_db s) -> ev_step s o = (out, s') -> get (d_events (s_db s)) id = Some e ->
  (o = OClose id /\ out = RUnit /\ get (d_events (s_db s')) id = None) \/ (exists e', get (d_events (s_db s')) id = Some e' /\ evolves o out e e').
Proof.
  intros I E G. pose proof (get_In _ _ _ G) as [Hi Ei].
  assert (Hid : id <> d_next (s_db s)).
  { pose proof (iv_ids _ I) as Q. rewrite Forall_forall in Q. apply Q in Hi. lia. }
  assert (Stay : forall d' r', out = r' -> delivers r' id = false -> s_db s' = d' -> get (d_events d') id = Some e ->
     (o = OClose id /\ out = RUnit /\ get (d_events (s_db s')) id = None) \/ (exists e', get (d_events (s_db s')) id = Some e' /\ evolves o out e e')).
  { intros d' r' -> Hd -> Hg. right. exists e. split; [exact Hg|]. apply evolves_same. rewrite Ei. exact Hd. }
  destruct o; cbn [ev_step] in E.
  - destruct (svc_create (s_db s) ty tpl fn ctx) as [r d'] eqn:C. injection E as <- <-. cbn [s_db fst snd] in *.
    eapply Stay; [reflexivity|apply out_id_nodeliver|reflexivity|].
    unfold svc_create in C. destruct (ty =? _) in C; [|destruct (ty =? _) in C];
      destruct (create_inv _ _ _ _ _ _ _ _ I C) as (_ & _ & _ & _ & _ & H & _); rewrite H by lia; exact G.
  - destruct (svc_create_ex (s_db s) ty tpl fn ctx group) as [r d'] eqn:C. injection E as <- <-. cbn [s_db fst snd] in *.
    eapply Stay; [reflexivity|apply out_id_nodeliver|reflexivity|].
    unfold svc_create_ex in C. destruct (_ || _) in C; [injection C as _ <-; exact G|].
    destruct (create_inv _ _ _ _ _ _ _ _ I C) as (_ & _ & _ & _ & _ & H & _); rewrite H by lia; exact G.
  - destruct (close_event (s_db s) id0) as [r d'] eqn:C. injection E as <- <-. cbn [s_db fst snd] in *.
    destruct (close_inv _ _ _ _ I C) as (_ & _ & _ & _ & _ & H).
    destruct (RT_EVENT <=? id0); [destruct H as [-> HE]; eapply Stay; [reflexivity|reflexivity|reflexivity|rewrite HE; exact G]|].
    destruct H as [ER HE]. destruct (N.eqb_spec id id0) as [<-|Nid].
    + left. rewrite G in ER. subst r. split; [reflexivity|]. split; [reflexivity|]. rewrite HE, N.eqb_refl. reflexivity.
    + eapply Stay; [reflexivity|apply out_unit_nodeliver|reflexivity|]. rewrite HE. destruct (N.eqb_spec id id0); [congruence|exact G].
  - destruct (signal_event (s_db s) id0) as [r d'] eqn:C. injection E as <- <-. cbn [s_db fst snd] in *.
    destruct (get (d_events (s_db s)) id0) as [e0|] eqn:G0.
    + destruct (signal_event_spec (s_db s) id0 e0 I G0) as (_ & _ & _ & _ & H & _). rewrite C in H. cbn [snd] in H. right.
      rewrite H, G. destruct (negb (e_signaled e0) && _); eexists; (split; [reflexivity|]);
      unfold evolves; rewrite out_unit_nodeliver; cbn; repeat (split; [reflexivity|]); (split; [|auto]); intros _; (split; [discriminate|auto]).
    + unfold signal_event in C. rewrite G0 in C. injection C as <- <-. eapply Stay; [reflexivity|reflexivity|reflexivity|exact G].
  - injection E as <- <-. cbn [s_db fst snd] in *. destruct (signal_group_spec (s_db s) g I) as (_ & _ & _ & H & _). right.
    rewrite H, G. destruct (grp g e); eexists; (split; [reflexivity|]); unfold evolves; cbn [delivers];
    cbn; repeat (split; [reflexivity|]); (split; [|auto]); intros _; (split; [discriminate|auto]).
  - destruct (svc_poll (s_db s) id0) as [r d'] eqn:C. injection E as <- <-. cbn [s_db fst snd] in *. unfold svc_poll, get_event_type in C.
    destruct (get (d_events (s_db s)) id0) as [e0|] eqn:G0; [|injection C as <- <-; eapply Stay; [reflexivity|reflexivity|reflexivity|exact G]].
    destruct (is_notify_signal (e_type e0)) eqn:SG; [injection C as <- <-; eapply Stay; [reflexivity|reflexivity|reflexivity|exact G]|].
    destruct (read_and_clear_signaled (s_db s) id0) as [rr d1] eqn:RC.
    destruct (read_clear_inv (s_db s) id0 rr d1 I) as (I1 & F1 & P1 & R1 & G1); [intros e1 E1; congruence|exact RC|].
    assert (H1 : exists e', get (d_events d1) id = Some e' /\ (e' = e \/ (e' = with_signaled false e /\ is_notify_signal (e_type e) = false))).
    { rewrite G1. destruct (N.eqb_spec id id0) as [->|]; [|eauto]. rewrite G0. assert (e0 = e) by congruence. subst e0. cbn. eauto. }
    assert (Fin : forall out' (HD : delivers out' id = false) d2, d_events d2 = d_events d1 ->
      (OPoll id0 = OClose id /\ out' = RUnit /\ get (d_events d2) id = None) \/ (exists e', get (d_events d2) id = Some e' /\ evolves (OPoll id0) out' e e')).
    { intros out' HD d2 ED. right. rewrite ED. destruct H1 as (e' & Ge' & [->|[-> NS]]); rewrite Ge'; eexists; (split; [reflexivity|]).
      - apply evolves_same. rewrite Ei. exact HD.
      - unfold evolves. cbn. repeat (split; [reflexivity|]). split; [congruence|auto]. }
    subst rr. destruct (is_signaled (s_db s) id0); [injection C as <- <-; apply Fin; reflexivity|].
    destruct (queue_event_notify d1 id0) as [rq d2] eqn:Q.
    destruct (queue_inv d1 id0 rq d2 I1 Q) as (I2 & F2 & E2 & _).
    { intros e1 E1. rewrite G1, N.eqb_refl, G0 in E1. injection E1 as <-. exact SG. }
    destruct rq; injection C as <- <-; apply Fin; auto.
  - destruct (svc_read (s_db s) id0) as [r d'] eqn:C. injection E as <- <-. cbn [s_db fst snd] in *. unfold svc_read, get_event_type in C.
    destruct (get (d_events (s_db s)) id0) as [e0|] eqn:G0; [|injection C as <- <-; eapply Stay; [reflexivity|reflexivity|reflexivity|exact G]].
    destruct (is_notify_signal (e_type e0)) eqn:SG; [injection C as <- <-; eapply Stay; [reflexivity|reflexivity|reflexivity|exact G]|].
    destruct (read_and_clear_signaled (s_db s) id0) as [rr d1] eqn:RC.
    destruct (read_clear_inv (s_db s) id0 rr d1 I) as (I1 & F1 & P1 & R1 & G1); [intros e1 E1; congruence|exact RC|].
    assert (H1 : exists e', get (d_events d1) id = Some e' /\ (e' = e \/ (e' = with_signaled false e /\ is_notify_signal (e_type e) = false))).
    { rewrite G1. destruct (N.eqb_spec id id0) as [->|]; [|eauto]. rewrite G0. assert (e0 = e) by congruence. subst e0. cbn. eauto. }
    assert (Fin : forall out' (HD : delivers out' id = false) d2, d_events d2 = d_events d1 ->
      (ORead id0 = OClose id /\ out' = RUnit /\ get (d_events d2) id = None) \/ (exists e', get (d_events d2) id = Some e' /\ evolves (ORead id0) out' e e')).
    { intros out' HD d2 ED. right. rewrite ED. destruct H1 as (e' & Ge' & [->|[-> NS]]); rewrite Ge'; eexists; (split; [reflexivity|]).
      - apply evolves_same. rewrite Ei. exact HD.
      - unfold evolves. cbn. repeat (split; [reflexivity|]). split; [congruence|auto]. }
    subst rr. destruct (is_signaled (s_db s) id0); injection C as <- <-; apply Fin; reflexivity.
  - destruct (svc_set_timer s id0 k time) as [r d'] eqn:C. injection E as <- <-. cbn [s_db fst snd] in *.
    assert (H : forall t p r0 d0, db_set_timer (s_db s) id0 k t p = (r0, d0) -> exists e', get (d_events d0) id = Some e' /\
       (e' = e \/ (id = id0 /\ e' = with_timer t p e))).
    { intros t p r0 d0 Q. destruct (set_timer_inv _ _ _ _ _ _ _ I Q) as (_ & _ & _ & H). destruct r0; [|subst; eauto|subst; eauto].
      destruct H as (e0 & Ge & _ & H). rewrite H. destruct (N.eqb_spec id id0) as [->|]; [|eauto].
      assert (e0 = e) by congruence. subst. eauto. }
    assert (Fin : forall t p r0 d0, db_set_timer (s_db s) id0 k t p = (r0, d0) ->
       (OSetTimer id0 k time = OClose id /\ out_unit r0 = RUnit /\ get (d_events d0) id = None) \/
       (exists e', get (d_events d0) id = Some e' /\ evolves (OSetTimer id0 k time) (out_unit r0) e e')).
    { intros t p r0 d0 Q. right. destruct (H t p r0 d0 Q) as (e' & Ge' & [->|[E0 ->]]); rewrite Ge'; eexists; (split; [reflexivity|]).
      - apply evolves_same. apply out_unit_nodeliver.
      - unfold evolves. rewrite out_unit_nodeliver. cbn. repeat (split; [reflexivity|]). split; [intros _; split; [discriminate|auto]|].
        rewrite Ei, E0, N.eqb_refl. discriminate. }
    unfold svc_set_timer in C. destruct k.
    + destruct (db_set_timer (s_db s) id0 TCancel None None) eqn:Q; injection C as <- <-. eapply Fin; exact Q.
    + destruct (uadd _ _ _); try (injection C as <- <-; eapply Stay; [reflexivity|reflexivity|reflexivity|exact G]).
      destruct (db_set_timer (s_db s) id0 TPeriodic _ _) eqn:Q; injection C as <- <-. eapply Fin; exact Q.
    + destruct (uadd _ _ _); try (injection C as <- <-; eapply Stay; [reflexivity|reflexivity|reflexivity|exact G]).
      destruct (db_set_timer (s_db s) id0 TRelative _ _) eqn:Q; injection C as <- <-. eapply Fin; exact Q.
  - destruct (db_timer_tick (s_db s) _) as [d'|er|] eqn:T; injection E as <- <-; cbn [s_db] in *;
      try (eapply Stay; [reflexivity|reflexivity|reflexivity|exact G]).
    destruct (tick_spec _ _ _ I T) as (_ & _ & _ & H & _). right. rewrite H, G. cbn [option_map]. eexists. split; [reflexivity|].
    unfold evolves, ticked. cbn [e_id e_type e_group e_signaled e_tpl e_fn e_ctx e_trigger e_period delivers andb].
    repeat (split; [reflexivity|]). split; [intros _; split; [discriminate|]; intros _ ->; reflexivity|].
    intros _ HT. unfold dueb. rewrite HT, andb_false_r. reflexivity.
  - destruct (svc_dispatch (s_db s) tpl) as [r d'] eqn:C. injection E as <- <-. cbn [s_db fst snd] in *.
    destruct (dispatch_spec _ _ _ _ I C) as (_ & _ & dead & _ & H). destruct r; try contradiction. destruct n as [n|].
    + destruct H as (EP & _ & e0 & Ge & _ & H). right. rewrite H. destruct (N.eqb_spec id (n_event n)) as [E0|N0].
      * assert (e0 = e) by congruence. subst e0. eexists. split; [reflexivity|]. unfold evolves. cbn [delivers]. rewrite Ei, <- E0, N.eqb_refl.
        destruct (is_notify_signal (e_type e)) eqn:SG.
        -- cbn. do 6 (split; [congruence|]). split; [|auto]. intros _. split; [intros _; split; [|reflexivity]|discriminate].
           exact (pend_live_signaled _ _ _ _ _ I EP Ge SG).
        -- do 6 (split; [congruence|]). split; [congruence|auto].
      * exists e. split; [exact G|]. apply evolves_same. cbn. rewrite Ei. apply N.eqb_neq. congruence.
    + destruct H as (_ & _ & HE). eapply Stay; [reflexivity|reflexivity|reflexivity|rewrite HE; exact G].
Qed.

(** A call other than dispatch only enqueues. *)
Lemma step_grows s o out s' : ev_inv (s_db s) -> ev_step s o = (out, s') -> (forall tpl, o <> ODispatch tpl) -> grows (s_db s) (s_db s').
Proof.
  intros I E ND. assert (Keep : forall d', d_pending d' = d_pending (s_db s) -> grows (s_db s) d').
  { intros d' H. apply grows_same. unfold views. rewrite H. reflexivity. }
  destruct o; cbn [ev_step] in E.
  - destruct (svc_create (s_db s) ty tpl fn ctx) as [r d'] eqn:C. injection E as <- <-. cbn [s_db snd]. apply Keep.
    unfold svc_create in C. destruct (ty =? _) in C; [|destruct (ty =? _) in C];
      destruct (create_inv _ _ _ _ _ _ _ _ I C) as (_ & _ & _ & _ & H & _); exact H.
  - destruct (svc_create_ex (s_db s) ty tpl fn ctx group) as [r d'] eqn:C. injection E as <- <-. cbn [s_db snd]. apply Keep.
    unfold svc_create_ex in C. destruct (_ || _) in C; [injection C as _ <-; reflexivity|].
    destruct (create_inv _ _ _ _ _ _ _ _ I C) as (_ & _ & _ & _ & H & _); exact H.
  - destruct (close_event (s_db s) id) as [r d'] eqn:C. injection E as <- <-. cbn [s_db snd]. apply Keep.
    destruct (close_inv _ _ _ _ I C) as (_ & _ & _ & _ & H & _). exact H.
  - destruct (signal_event (s_db s) id) as [r d'] eqn:C. injection E as <- <-. cbn [s_db snd].
    destruct (get (d_events (s_db s)) id) as [e|] eqn:G.
    + destruct (signal_event_spec (s_db s) id e I G) as (_ & _ & _ & _ & _ & V). rewrite C in V. cbn in V. eapply grows_queued. exact V.
    + unfold signal_event in C. rewrite G in C. injection C as _ <-. apply grows_refl.
  - injection E as <- <-. cbn [s_db snd]. destruct (signal_group_spec (s_db s) g I) as (_ & _ & _ & _ & V). eapply grows_queued. exact V.
  - destruct (svc_poll (s_db s) id) as [r d'] eqn:C. injection E as <- <-. cbn [s_db snd]. unfold svc_poll, get_event_type in C.
    destruct (get (d_events (s_db s)) id) as [e|] eqn:G; [|injection C as _ <-; apply grows_refl].
    destruct (is_notify_signal (e_type e)) eqn:SG; [injection C as _ <-; apply grows_refl|].
    destruct (read_and_clear_signaled (s_db s) id) as [rr d1] eqn:RC.
    destruct (read_clear_inv (s_db s) id rr d1 I) as (I1 & F1 & P1 & R1 & G1); [intros e0 E0; congruence|exact RC|].
    subst rr. destruct (is_signaled (s_db s) id); [injection C as _ <-; apply Keep; exact P1|].
    destruct (queue_event_notify d1 id) as [rq d2] eqn:Q.
    destruct (queue_inv d1 id rq d2 I1 Q) as (I2 & F2 & E2 & H & _).
    { intros e0 E0. rewrite G1, N.eqb_refl, G in E0. injection E0 as <-. exact SG. }
    assert (grows (s_db s) d2).
    { eapply grows_trans; [apply Keep; exact P1|]. rewrite G1, N.eqb_refl, G in H. cbn [option_map] in H.
      destruct H as (_ & [V|[_ V]]); [apply grows_same; exact V|]. eexists [_]. cbn [fold_left]. exact V. }
    destruct rq; injection C as _ <-; assumption.
  - destruct (svc_read (s_db s) id) as [r d'] eqn:C. injection E as <- <-. cbn [s_db snd]. unfold svc_read, get_event_type in C.
    destruct (get (d_events (s_db s)) id) as [e|] eqn:G; [|injection C as _ <-; apply grows_refl].
    destruct (is_notify_signal (e_type e)) eqn:SG; [injection C as _ <-; apply grows_refl|].
    destruct (read_and_clear_signaled (s_db s) id) as [rr d1] eqn:RC.
    destruct (read_clear_inv (s_db s) id rr d1 I) as (I1 & F1 & P1 & R1 & G1); [intros e0 E0; congruence|exact RC|].
    subst rr. destruct (is_signaled (s_db s) id); injection C as _ <-; apply Keep; exact P1.
  - destruct (svc_set_timer s id k time) as [r d'] eqn:C. injection E as <- <-. cbn [s_db snd]. apply Keep.
    assert (H : forall t p r0 d0, db_set_timer (s_db s) id k t p = (r0, d0) -> d_pending d0 = d_pending (s_db s)).
    { intros t p r0 d0 Q. destruct (set_timer_inv _ _ _ _ _ _ _ I Q) as (_ & _ & H & _). exact H. }
    unfold svc_set_timer in C. destruct k.
    + destruct (db_set_timer (s_db s) id TCancel None None) eqn:Q; injection C as _ <-. eapply H; exact Q.
    + destruct (uadd _ _ _); try (injection C as _ <-; reflexivity).
      destruct (db_set_timer (s_db s) id TPeriodic _ _) eqn:Q; injection C as _ <-. eapply H; exact Q.
    + destruct (uadd _ _ _); try (injection C as _ <-; reflexivity).
      destruct (db_set_timer (s_db s) id TRelative _ _) eqn:Q; injection C as _ <-. eapply H; exact Q.
  - destruct (db_timer_tick (s_db s) _) as [d'|e|] eqn:T; injection E as <- <-; cbn [s_db]; try apply grows_refl.
    destruct (tick_spec _ _ _ I T) as (_ & _ & _ & _ & V). exact V.
  - elim (ND tpl). reflexivity.
Qed.
End Inflight.

Lemma reach_inv s : ev_reachable s -> ev_inv (s_db s).
Proof. intros (dbg & miss & ops & <-). apply run_inv. apply inv_new. Qed.
