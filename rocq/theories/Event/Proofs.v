(** Proofs about the event database. *)
From Coq Require Import Sorting.Sorted.
From Verif Require Import Base.Prelude Event.Model Event.Spec.
Local Open Scope N_scope.

(** ** Flag tests *)
Lemma land_bit ty k : (N.land ty (2 ^ k) =? 0) = negb (N.testbit ty k).
Proof.
  destruct (N.testbit ty k) eqn:B; cbn [negb].
  - apply N.eqb_neq. intros E. assert (N.testbit (N.land ty (2 ^ k)) k = true).
    { rewrite N.land_spec, B, N.pow2_bits_true. reflexivity. } rewrite E, N.bits_0 in H. discriminate.
  - apply N.eqb_eq. apply N.bits_inj_0. intros n. rewrite N.land_spec.
    destruct (N.eq_dec k n) as [->|NE]; [rewrite B; reflexivity|]. rewrite N.pow2_bits_false by auto. apply andb_false_r.
Qed.
Lemma is_notify_signal_bit ty : is_notify_signal ty = N.testbit ty 9.
Proof. unfold is_notify_signal. change EVT_NOTIFY_SIGNAL with (2 ^ 9). rewrite land_bit. apply negb_involutive. Qed.
Lemma is_timer_bit ty : is_timer ty = N.testbit ty 31.
Proof. unfold is_timer. change EVT_TIMER with (2 ^ 31). rewrite land_bit. apply negb_involutive. Qed.

(** ** The event map *)
Definition elt (a b : event) : Prop := e_id a < e_id b.
Notation get := em_get.

Lemma get_In es id e : get es id = Some e -> In e es /\ e_id e = id.
Proof. unfold get. intros H. apply find_some in H. rewrite N.eqb_eq in H. exact H. Qed.

Lemma get_None es id : get es id = None -> forall e, In e es -> e_id e <> id.
Proof. unfold get. intros H e He E. pose proof (find_none _ _ H e He) as Q. cbn in Q. apply N.eqb_neq in Q. auto. Qed.

Lemma In_get es e : StronglySorted elt es -> In e es -> get es (e_id e) = Some e.
Proof.
  intros HS. induction HS as [|a es HS IH HF]; intros Hi; [destruct Hi|].
  unfold get. cbn. destruct Hi as [->|Hi]; [rewrite N.eqb_refl; reflexivity|].
  rewrite Forall_forall in HF. specialize (HF e Hi). unfold elt in HF.
  destruct (N.eqb_spec (e_id a) (e_id e)); [lia|]. apply IH. exact Hi.
Qed.

Lemma get_update es id f j : (forall e, e_id (f e) = e_id e) ->
  get (em_update es id f) j = if j =? id then option_map f (get es id) else get es j.
Proof.
  intros Hf. unfold em_update, get. induction es as [|a es IH]; [cbn; destruct (j =? id); reflexivity|].
  cbn [map find].
  assert (E : e_id (if e_id a =? id then f a else a) = e_id a) by (destruct (e_id a =? id); auto).
  rewrite E. destruct (N.eqb_spec (e_id a) j) as [Ej|Ej].
  - subst j. rewrite (N.eqb_sym (e_id a) id), (N.eqb_sym id). destruct (N.eqb_spec (e_id a) id); reflexivity.
  - rewrite IH. destruct (N.eqb_spec j id) as [->|]; [|reflexivity].
    destruct (N.eqb_spec (e_id a) id); [congruence|reflexivity].
Qed.

Lemma ids_update es id f : (forall e, e_id (f e) = e_id e) -> map e_id (em_update es id f) = map e_id es.
Proof.
  intros Hf. unfold em_update. rewrite map_map. apply map_ext. intros a. destruct (e_id a =? id); auto.
Qed.

Lemma sorted_ids es : StronglySorted elt es <-> StronglySorted N.lt (map e_id es).
Proof.
  induction es as [|a es IH]; cbn; [split; constructor|]. split; intros H; inversion H as [|? ? Hs Hf]; subst.
  - constructor; [tauto|]. rewrite Forall_map. exact Hf.
  - constructor; [tauto|]. rewrite Forall_map in Hf. exact Hf.
Qed.

Lemma sorted_update es id f : (forall e, e_id (f e) = e_id e) -> StronglySorted elt es -> StronglySorted elt (em_update es id f).
Proof. intros Hf. rewrite !sorted_ids, ids_update; auto. Qed.

Lemma In_update es id f x : In x (em_update es id f) -> (In x es /\ e_id x <> id) \/ (exists e, In e es /\ e_id e = id /\ x = f e).
Proof.
  unfold em_update. rewrite in_map_iff. intros (e & E & Hi). destruct (N.eqb_spec (e_id e) id); subst x; [right|left]; eauto.
Qed.

Lemma sorted_filter {A} (R : A -> A -> Prop) p l : StronglySorted R l -> StronglySorted R (filter p l).
Proof.
  induction 1 as [|a l HS IH HF]; cbn; [constructor|]. destruct (p a); [|exact IH]. constructor; [exact IH|].
  rewrite Forall_forall in *. intros x Hx. apply filter_In in Hx. apply HF. tauto.
Qed.

Lemma get_remove es id j : get (em_remove es id) j = if j =? id then None else get es j.
Proof.
  unfold em_remove, get. induction es as [|a es IH]; cbn; [destruct (j =? id); reflexivity|].
  destruct (N.eqb_spec (e_id a) id) as [Ea|Ea]; cbn.
  - rewrite IH. destruct (N.eqb_spec j id); [reflexivity|]. destruct (N.eqb_spec (e_id a) j); [congruence|reflexivity].
  - destruct (N.eqb_spec (e_id a) j) as [Ej|Ej]; [|exact IH]. destruct (N.eqb_spec j id); [congruence|reflexivity].
Qed.

Lemma insert_last es x : Forall (fun e => e_id e < e_id x) es -> em_insert es x = es ++ [x].
Proof.
  induction 1 as [|a es Ha _ IH]; cbn; [reflexivity|]. destruct (N.ltb_spec (e_id x) (e_id a)); [lia|].
  destruct (N.eqb_spec (e_id x) (e_id a)); [lia|]. rewrite IH. reflexivity.
Qed.

Lemma get_app es x j : Forall (fun e => e_id e < e_id x) es -> get (es ++ [x]) j = if j =? e_id x then Some x else get es j.
Proof.
  unfold get. induction 1 as [|a es Ha _ IH]; cbn.
  - rewrite N.eqb_sym. reflexivity.
  - rewrite IH. destruct (N.eqb_spec (e_id a) j); [|reflexivity]. destruct (N.eqb_spec j (e_id x)); [lia|reflexivity].
Qed.

(** ** The pending queue *)
Definition nb (a b : notif) : Prop := notif_before a b = true.
Lemma nb_iff a b : nb a b <-> n_tpl b < n_tpl a \/ (n_tpl a = n_tpl b /\ n_tag a < n_tag b).
Proof. unfold nb, notif_before. rewrite orb_true_iff, andb_true_iff, N.ltb_lt, N.eqb_eq, N.ltb_lt. tauto. Qed.

Lemma insert_ordered_In x p y : In y (insert_ordered x p) <-> y = x \/ In y p.
Proof.
  induction p as [|a p IH]; cbn; [intuition|]. destruct (notif_before x a); cbn; [intuition|]. rewrite IH. intuition.
Qed.

Lemma insert_ordered_split x p : StronglySorted nb p -> Forall (fun y => n_tag y < n_tag x) p ->
  insert_ordered x p = filter (fun y => n_tpl x <=? n_tpl y) p ++ x :: filter (fun y => n_tpl y <? n_tpl x) p.
Proof.
  intros HS HT. induction HS as [|a p HS IH HF]; [reflexivity|]. inversion HT as [|? ? Ta Tp]; subst.
  cbn [insert_ordered filter]. destruct (notif_before x a) eqn:B.
  - assert (La : n_tpl a < n_tpl x) by (apply nb_iff in B; lia).
    destruct (N.leb_spec (n_tpl x) (n_tpl a)); [lia|]. destruct (N.ltb_spec (n_tpl a) (n_tpl x)); [|lia].
    assert (Lp : forall y, In y p -> n_tpl y < n_tpl x).
    { intros y Hy. rewrite Forall_forall in HF. specialize (HF y Hy). apply nb_iff in HF. lia. }
    assert (E1 : filter (fun y => n_tpl x <=? n_tpl y) p = []).
    { clear -Lp. induction p as [|y p IH]; [reflexivity|]. cbn. destruct (N.leb_spec (n_tpl x) (n_tpl y)).
      - specialize (Lp y (or_introl eq_refl)). lia. - apply IH. intros z Hz. apply Lp. cbn; auto. }
    assert (E2 : filter (fun y => n_tpl y <? n_tpl x) p = p).
    { clear -Lp. induction p as [|y p IH]; [reflexivity|]. cbn. destruct (N.ltb_spec (n_tpl y) (n_tpl x)).
      - f_equal. apply IH. intros z Hz. apply Lp. cbn; auto. - specialize (Lp y (or_introl eq_refl)). lia. }
    rewrite E1, E2. reflexivity.
  - assert (La : n_tpl x <= n_tpl a).
    { destruct (N.le_gt_cases (n_tpl x) (n_tpl a)); auto. assert (nb x a) by (apply nb_iff; lia). unfold nb in *. congruence. }
    destruct (N.leb_spec (n_tpl x) (n_tpl a)); [|lia]. destruct (N.ltb_spec (n_tpl a) (n_tpl x)); [lia|].
    cbn [app]. f_equal. apply IH. exact Tp.
Qed.

Lemma insert_ordered_sorted x p : StronglySorted nb p -> Forall (fun y => n_tag y < n_tag x) p -> StronglySorted nb (insert_ordered x p).
Proof.
  intros HS HT. induction HS as [|a p HS IH HF]; [cbn; repeat constructor|]. inversion HT as [|? ? Ta Tp]; subst.
  cbn [insert_ordered]. destruct (notif_before x a) eqn:B.
  - constructor; [constructor; auto|]. constructor; [exact B|]. rewrite Forall_forall in *. intros y Hy.
    specialize (HF y Hy). specialize (Tp y Hy). apply nb_iff. apply nb_iff in HF, B. lia.
  - constructor; [auto|]. apply Forall_forall. intros y Hy. apply insert_ordered_In in Hy. destruct Hy as [->|Hy].
    + apply nb_iff. assert (~ nb x a) by (unfold nb; congruence). rewrite nb_iff in H. lia.
    + rewrite Forall_forall in HF. auto.
Qed.

Lemma map_filter {A B} (f : A -> B) (p : B -> bool) l : filter p (map f l) = map f (filter (fun x => p (f x)) l).
Proof. induction l as [|a l IH]; cbn; [reflexivity|]. destruct (p (f a)); cbn; rewrite IH; reflexivity. Qed.

Lemma insert_view x p : StronglySorted nb p -> Forall (fun y => n_tag y < n_tag x) p ->
  map notice_of (insert_ordered x p) = enqueue (map notice_of p) (notice_of x).
Proof.
  intros HS HT. rewrite insert_ordered_split by assumption. unfold enqueue.
  rewrite map_app. cbn [map]. rewrite !map_filter. reflexivity.
Qed.

Definition cnt (p : list notif) (id : N) : nat := length (filter (fun n => n_event n =? id) p).
Lemma cnt_insert x p id : cnt (insert_ordered x p) id = ((if (n_event x =? id)%N then 1 else 0) + cnt p id)%nat.
Proof.
  unfold cnt. induction p as [|a p IH]; cbn; [destruct (n_event x =? id)%N; reflexivity|].
  destruct (notif_before x a); cbn; [destruct (n_event x =? id)%N; cbn; destruct (n_event a =? id)%N; reflexivity|].
  destruct (n_event a =? id)%N; cbn; rewrite IH; destruct (n_event x =? id)%N; reflexivity.
Qed.
Lemma cnt_zero p id : cnt p id = 0%nat <-> existsb (fun y => n_event y =? id) p = false.
Proof.
  unfold cnt. induction p as [|a p IH]; cbn; [tauto|]. destruct (n_event a =? id)%N; cbn; [split; discriminate|exact IH].
Qed.

(** ** The invariant *)
(** [ex] counts, for each event, notifications taken from the queue by dispatchers that have not yet cleared the
    event's signalled flag (none between services: see the notation [ev_inv] below; Tpl/ needs the general form). *)
Section Inflight.
Context {ex : N -> nat}.
Record evi (d : evdb) : Prop := {
  iv_sorted : StronglySorted elt (d_events d);
  iv_ids : Forall (fun e => 0 < e_id e < d_next d) (d_events d);
  iv_next : 0 < d_next d <= RT_EVENT;
  iv_psorted : StronglySorted nb (d_pending d);
  iv_tags : Forall (fun n => n_tag n < d_tags d) (d_pending d);
  iv_pids : Forall (fun n => n_event n < d_next d) (d_pending d);
  iv_pend : forall n e, In n (d_pending d) -> get (d_events d) (n_event n) = Some e -> notice_of n = notice_for e;
  iv_count : forall e, In e (d_events d) -> is_notify_signal (e_type e) = true ->
     (ex (e_id e) + cnt (d_pending d) (e_id e))%nat = if e_signaled e then 1%nat else 0%nat;
  iv_ex : forall id, d_next d <= id -> ex id = 0%nat
}.
Notation ev_inv := evi.


(** Fields that a call never changes once the event exists. *)
Definition same_shape (f : event -> event) : Prop := forall e,
  e_id (f e) = e_id e /\ e_type (f e) = e_type e /\ e_group (f e) = e_group e /\ e_tpl (f e) = e_tpl e /\
  e_fn (f e) = e_fn e /\ e_ctx (f e) = e_ctx e.
Lemma shape_signaled b : same_shape (with_signaled b).
Proof. intros e. cbn. tauto. Qed.
Lemma shape_timer t p : same_shape (with_timer t p).
Proof. intros e. cbn. tauto. Qed.
Lemma shape_id f : same_shape f -> forall e, e_id (f e) = e_id e.
Proof. intros H e. apply (H e). Qed.
Lemma shape_notice f e : same_shape f -> notice_for (f e) = notice_for e.
Proof. intros H. destruct (H e) as (A & _ & _ & B & C & D). unfold notice_for. congruence. Qed.

(** Updating one event and the pending queue together. *)
Lemma inv_update d id f p tags : ev_inv d -> same_shape f ->
  StronglySorted nb p -> Forall (fun n => n_tag n < tags) p -> d_tags d <= tags ->
  (forall n, In n p -> In n (d_pending d) \/ (exists e, get (d_events d) (n_event n) = Some e /\ notice_of n = notice_for e)) ->
  (forall e, In e (d_events d) -> e_id e <> id -> is_notify_signal (e_type e) = true -> cnt p (e_id e) = cnt (d_pending d) (e_id e)) ->
  (forall e, get (d_events d) id = Some e -> is_notify_signal (e_type e) = true -> (ex id + cnt p id)%nat = if e_signaled (f e) then 1%nat else 0%nat) ->
  ev_inv (MkDb (d_dbg d) (em_update (d_events d) id f) (d_next d) p tags (d_rt d) (d_miss d)).
Proof.
  intros I Hf HS HT Hle Hin Hc Hid. pose proof (shape_id f Hf) as Fi. constructor; cbn [d_events d_next d_pending d_tags].
  - apply sorted_update; [exact Fi|apply (iv_sorted d I)].
  - apply Forall_forall. intros x Hx. pose proof (iv_ids d I) as Q. rewrite Forall_forall in Q.
    apply In_update in Hx. destruct Hx as [[Hx _]|(e & He & _ & ->)]; [auto|]. rewrite Fi. auto.
  - apply (iv_next d I).
  - exact HS.
  - exact HT.
  - apply Forall_forall. intros n Hn. destruct (Hin n Hn) as [Ho|(e & He & _)].
    + pose proof (iv_pids d I) as Q. rewrite Forall_forall in Q. auto.
    + apply get_In in He. destruct He as [He <-]. pose proof (iv_ids d I) as Q. rewrite Forall_forall in Q. apply Q in He. lia.
  - intros n e Hn He. rewrite get_update in He by exact Fi.
    assert (Base : forall e0, get (d_events d) (n_event n) = Some e0 -> notice_of n = notice_for e0).
    { intros e0 E0. destruct (Hin n Hn) as [Ho|(e1 & E1 & E2)]; [eapply (iv_pend d I); eauto|congruence]. }
    destruct (N.eqb_spec (n_event n) id) as [E|_]; [|auto].
    destruct (get (d_events d) id) as [e0|] eqn:E0; [|discriminate]. cbn in He. injection He as <-.
    rewrite shape_notice by exact Hf. apply Base. congruence.
  - intros x Hx Sx. apply In_update in Hx. destruct Hx as [[Hx Nx]|(e & He & Ei & ->)].
    + rewrite Hc by assumption. apply (iv_count d I); assumption.
    + rewrite Fi, Ei. apply Hid; [rewrite <- Ei; apply In_get; [apply (iv_sorted d I)|exact He]|].
      destruct (Hf e) as (_ & Et & _). rewrite <- Et. exact Sx.
  - apply (iv_ex d I).
Qed.

(** ** Signalling *)
Lemma notify_sig_nonwait e : is_notify_signal (e_type e) = true -> is_notify_signal (e_type e) || is_notify_wait (e_type e) = true.
Proof. intros ->. reflexivity. Qed.

(** Everything except events, pending and tags. *)
Definition same_frame (d d' : evdb) : Prop :=
  d_dbg d' = d_dbg d /\ d_next d' = d_next d /\ d_rt d' = d_rt d /\ d_miss d' = d_miss d.
Lemma frame_refl d : same_frame d d.
Proof. unfold same_frame. auto. Qed.
Lemma frame_trans a b c : same_frame a b -> same_frame b c -> same_frame a c.
Proof. unfold same_frame. intuition congruence. Qed.

Definition views (d : evdb) : list notice := map notice_of (d_pending d).

Lemma signal_one_spec d e : ev_inv d -> get (d_events d) (e_id e) = Some e -> e_signaled e = false ->
  let d' := signal_one d e in
  ev_inv d' /\ same_frame d d' /\ d_events d' = em_update (d_events d) (e_id e) (with_signaled true) /\
  views d' = (if signal_type e then enqueue (views d) (notice_for e) else views d).
Proof.
  intros I He Hs d'. pose proof (get_In _ _ _ He) as [Hin _].
  unfold d', signal_one, signal_type. rewrite is_notify_signal_bit. destruct (N.testbit (e_type e) 9) eqn:B.
  - assert (SG : is_notify_signal (e_type e) = true) by (rewrite is_notify_signal_bit; exact B).
    unfold queue_notify_event. rewrite SG. cbn [orb].
    unfold set_events, bump_tag, set_pending. cbn [d_dbg d_events d_next d_pending d_tags d_rt d_miss].
    pose proof (iv_count d I e Hin SG) as C0. rewrite Hs in C0. apply Nat.eq_add_0 in C0. destruct C0 as [X0 C0].
    unfold pending_insert. cbn [n_event n_tag]. pose proof C0 as C0'. apply cnt_zero in C0. rewrite C0. cbn [andb].
    set (x := MkNt (e_id e) (e_tpl e) (e_fn e) (e_ctx e) (d_tags d)).
    assert (HT : Forall (fun y => n_tag y < n_tag x) (d_pending d)) by (apply (iv_tags d I)).
    split; [|split; [unfold same_frame; cbn; auto|split; [reflexivity|]]].
    + apply inv_update; try assumption; [apply shape_signaled| | | | | |].
      * apply insert_ordered_sorted; [apply (iv_psorted d I)|exact HT].
      * apply Forall_forall. intros n Hn. apply insert_ordered_In in Hn. destruct Hn as [->|Hn]; [cbn; lia|].
        rewrite Forall_forall in HT. specialize (HT n Hn). cbn in HT. lia.
      * lia.
      * intros n Hn. apply insert_ordered_In in Hn. destruct Hn as [->|Hn]; [right; exists e; auto|auto].
      * intros e1 H1 N1 _. rewrite cnt_insert. cbn [n_event x]. destruct (N.eqb_spec (e_id e) (e_id e1)); [congruence|reflexivity].
      * intros e1 H1 _. rewrite cnt_insert. cbn [n_event x]. rewrite N.eqb_refl, C0', X0. cbn. reflexivity.
    + unfold views. cbn [d_pending]. rewrite insert_view; [reflexivity|apply (iv_psorted d I)|exact HT].
  - split; [|split; [unfold same_frame; cbn; auto|split; reflexivity]].
    unfold set_events. apply inv_update; try assumption; try apply I; [apply shape_signaled|lia|auto|auto|].
    intros e1 H1 S1. assert (e1 = e) by congruence. subst. rewrite is_notify_signal_bit in S1. congruence.
Qed.

(** A run of signals over distinct unsignalled events. *)
Lemma signal_many_spec l : forall d, ev_inv d -> NoDup (map e_id l) ->
  (forall e, In e l -> get (d_events d) (e_id e) = Some e /\ e_signaled e = false) ->
  let d' := fold_left signal_one l d in
  ev_inv d' /\ same_frame d d' /\ map e_id (d_events d') = map e_id (d_events d) /\
  (forall j, get (d_events d') j =
     match get (d_events d) j with
     | Some e => if existsb (fun x => e_id x =? j) l then Some (with_signaled true e) else Some e
     | None => None
     end) /\
  views d' = queued (views d) l.
Proof.
  induction l as [|e l IH]; intros d I ND HL; cbn [fold_left].
  - cbn. split; [exact I|]. split; [apply frame_refl|]. split; [reflexivity|]. split; [|reflexivity].
    intros j. destruct (get (d_events d) j); reflexivity.
  - destruct (HL e (or_introl eq_refl)) as [He Hs].
    destruct (signal_one_spec d e I He Hs) as (I1 & F1 & E1 & V1). cbn [map] in ND. inversion ND as [|? ? Nin ND1]; subst.
    assert (HL1 : forall x, In x l -> get (d_events (signal_one d e)) (e_id x) = Some x /\ e_signaled x = false).
    { intros x Hx. destruct (HL x (or_intror Hx)) as [Gx Sx]. split; [|exact Sx]. rewrite E1, get_update by (intros; reflexivity).
      destruct (N.eqb_spec (e_id x) (e_id e)) as [Q|_]; [|exact Gx]. elim Nin. rewrite <- Q. apply in_map. exact Hx. }
    destruct (IH (signal_one d e) I1 ND1 HL1) as (I2 & F2 & D2 & G2 & V2).
    split; [exact I2|]. split; [eapply frame_trans; eauto|]. split; [rewrite D2, E1; apply ids_update; intros; reflexivity|].
    split; [|rewrite V2, V1; cbn [queued fold_left]; reflexivity].
    intros j. rewrite G2, E1, get_update by (intros; reflexivity). cbn [existsb].
    destruct (N.eqb_spec j (e_id e)) as [->|Nj].
    + rewrite N.eqb_refl. cbn [orb]. rewrite He. cbn [option_map]. destruct (existsb _ l); reflexivity.
    + destruct (N.eqb_spec (e_id e) j); [congruence|]. cbn [orb]. reflexivity.
Qed.

Lemma sorted_NoDup es : StronglySorted elt es -> NoDup (map e_id es).
Proof.
  induction 1 as [|a es HS IH HF]; cbn; constructor; [|exact IH]. rewrite in_map_iff. intros (x & E & Hx).
  rewrite Forall_forall in HF. specialize (HF x Hx). unfold elt in HF. lia.
Qed.
Lemma NoDup_filter_map es p : NoDup (map e_id es) -> NoDup (map e_id (filter p es)).
Proof.
  induction es as [|a es IH]; cbn; intros H; [constructor|]. inversion H as [|? ? Hn Hd]; subst.
  destruct (p a); [|auto]. cbn. constructor; [|auto]. intros Q. apply Hn. apply in_map_iff in Q. destruct Q as (x & E & Hx).
  apply filter_In in Hx. rewrite <- E. apply in_map. tauto.
Qed.

Lemma existsb_id l j : existsb (fun x => e_id x =? j) l = true <-> exists x, In x l /\ e_id x = j.
Proof.
  rewrite existsb_exists. split; intros (x & A & B); exists x; [rewrite N.eqb_eq in B|rewrite N.eqb_eq]; auto.
Qed.

Definition grp (g : N) (e : event) : bool := match e_group e with Some h => h =? g | None => false end.
Lemma in_group_grp g e : in_group g e = grp g e.
Proof. unfold in_group, grp, opt_eqb. destruct (e_group e); reflexivity. Qed.

Lemma signal_group_spec d g : ev_inv d ->
  let d' := signal_group d g in
  ev_inv d' /\ same_frame d d' /\ map e_id (d_events d') = map e_id (d_events d) /\
  (forall j, get (d_events d') j =
     match get (d_events d) j with
     | Some e => if grp g e then Some (with_signaled true e) else Some e
     | None => None
     end) /\
  views d' = queued (views d) (filter (fun e => grp g e && negb (e_signaled e)) (rev (d_events d))).
Proof.
  intros I. unfold signal_group. set (l := filter _ _). pose proof (iv_sorted d I) as HS.
  assert (EL : l = filter (fun e => grp g e && negb (e_signaled e)) (rev (d_events d))).
  { unfold l. apply filter_ext. intros e. rewrite in_group_grp. reflexivity. }
  assert (ND : NoDup (map e_id l)).
  { apply NoDup_filter_map. rewrite map_rev. apply NoDup_rev, sorted_NoDup, HS. }
  assert (HL : forall e, In e l -> get (d_events d) (e_id e) = Some e /\ e_signaled e = false).
  { intros e He. rewrite EL in He. apply filter_In in He. destruct He as [Hi Hc]. apply in_rev in Hi.
    split; [apply In_get; assumption|]. apply andb_true_iff in Hc. destruct Hc as [_ Hc]. apply negb_true_iff. exact Hc. }
  destruct (signal_many_spec l d I ND HL) as (A & B & C & D & E). cbn zeta.
  split; [exact A|]. split; [exact B|]. split; [exact C|]. split; [|rewrite E, EL; reflexivity].
  intros j. rewrite D. destruct (get (d_events d) j) as [e|] eqn:Ge; [|reflexivity].
  pose proof (get_In _ _ _ Ge) as [Hi Ej].
  destruct (existsb (fun x => e_id x =? j) l) eqn:X.
  - apply existsb_id in X. destruct X as (x & Hx & Xj). rewrite EL in Hx. apply filter_In in Hx. destruct Hx as [Hx Hc].
    apply in_rev in Hx. assert (x = e). { pose proof (In_get _ _ HS Hx). rewrite Xj, Ge in H. congruence. } subst x.
    apply andb_true_iff in Hc. destruct Hc as [-> _]. reflexivity.
  - destruct (grp g e) eqn:Gg; [|reflexivity]. destruct (e_signaled e) eqn:Sg.
    + f_equal. destruct e; cbn in *. subst. reflexivity.
    + exfalso. assert (existsb (fun x => e_id x =? j) l = true); [|congruence]. apply existsb_id. exists e. split; [|exact Ej].
      rewrite EL. apply filter_In. split; [apply in_rev in Hi; apply -> in_rev; apply in_rev; exact Hi|]. rewrite Gg, Sg. reflexivity.
Qed.

(** The events an [signal_event] call signals, newest first. *)
Definition targets (d : evdb) (e : event) : list event :=
  if e_signaled e then []
  else match e_group e with
  | Some g => filter (fun x => grp g x && negb (e_signaled x)) (rev (d_events d))
  | None => [e]
  end.

Lemma signal_event_spec d id e : ev_inv d -> get (d_events d) id = Some e ->
  let d' := snd (signal_event d id) in
  fst (signal_event d id) = Ok tt /\
  ev_inv d' /\ same_frame d d' /\ map e_id (d_events d') = map e_id (d_events d) /\
  (forall j, get (d_events d') j =
     match get (d_events d) j with
     | Some x => if negb (e_signaled e) && ((j =? id) || match e_group e with Some g => grp g x | None => false end)
                 then Some (with_signaled true x) else Some x
     | None => None
     end) /\
  views d' = queued (views d) (targets d e).
Proof.
  intros I Ge. unfold signal_event, targets. rewrite Ge. destruct (e_signaled e) eqn:Sg; cbn [fst snd negb andb].
  - split; [reflexivity|]. split; [exact I|]. split; [apply frame_refl|]. split; [reflexivity|]. split; [|reflexivity].
    intros j. destruct (get (d_events d) j); reflexivity.
  - destruct (e_group e) as [g|] eqn:Eg; cbn [fst snd].
    + destruct (signal_group_spec d g I) as (A & B & C & D & E). split; [reflexivity|]. split; [exact A|]. split; [exact B|].
      split; [exact C|]. split; [|exact E]. intros j. rewrite D. destruct (get (d_events d) j) as [x|] eqn:Gx; [|reflexivity].
      destruct (N.eqb_spec j id) as [->|]; [|reflexivity]. assert (x = e) by congruence. subst x.
      unfold grp. rewrite Eg, N.eqb_refl. reflexivity.
    + pose proof (get_In _ _ _ Ge) as [Hi Ei].
      destruct (signal_one_spec d e I) as (A & B & C & D); [rewrite Ei; exact Ge|exact Sg|].
      split; [reflexivity|]. split; [exact A|]. split; [exact B|]. split; [rewrite C; apply ids_update; intros; reflexivity|].
      split; [|rewrite D; reflexivity]. intros j. rewrite C, get_update by (intros; reflexivity). rewrite Ei, Ge, orb_false_r.
      destruct (N.eqb_spec j id) as [->|]; [rewrite Ge; reflexivity|]. destruct (get (d_events d) j); reflexivity.
Qed.
End Inflight.

Notation ev_inv := (@evi (fun _ => 0%nat)).
Lemma inv_new dbg miss : ev_inv (db_new dbg miss).
Proof.
  constructor; cbn; try constructor; try lia; try (intros; contradiction). unfold RT_EVENT. lia.
Qed.
