(** Event services: the property theorems (C12-C15). *)
From Coq Require Import Sorting.Sorted.
From Verif Require Import Base.Prelude Event.Model Event.Spec Event.Proofs Event.Main.
Local Open Scope N_scope.

(** ** C12: exactly one notification per signal *)

(** In every reachable state a live notify-signal event has exactly one pending notification if it is signalled and
    none otherwise. *)
Theorem signalled_event_pending_once : forall s id e,
  ev_reachable s -> live s id = Some e -> signal_type e = true ->
  pending_count s id = if e_signaled e then 1%nat else 0%nat.
Proof.
  intros s id e R L T. pose proof (reach_inv s R) as I. pose proof (get_In _ _ _ L) as [Hi Ei].
  unfold signal_type in T. rewrite <- is_notify_signal_bit in T. rewrite <- (iv_count _ I e Hi T), Ei. cbn [Nat.add].
  unfold pending_count, pending, cnt. clear. induction (d_pending (s_db s)) as [|n p IH]; cbn; [reflexivity|].
  destruct (n_event n =? id); cbn; congruence.
Qed.
Print Assumptions signalled_event_pending_once.

(** Exact effect of SignalEvent: an unsignalled live event becomes signalled together with the unsignalled members of
    its group, each notify-signal one of them is queued once (newest first), nothing else changes; an already
    signalled event changes nothing; an unknown event is an error without effect. *)
Theorem signal_event_exact : forall s id,
  ev_reachable s ->
  let r := ev_step s (OSignal id) in
  match live s id with
  | None => r = (RErr InvalidParameter, s)
  | Some e =>
    fst r = RUnit /\
    (forall j, live (snd r) j =
       match live s j with
       | Some x => Some (if negb (e_signaled e) &&
                            ((j =? id) || match e_group e, e_group x with Some g, Some h => h =? g | _, _ => false end)
                         then signalled x else x)
       | None => None
       end) /\
    pending (snd r) =
      queued (pending s)
        (if e_signaled e then [] else
         match e_group e with
         | Some g => filter (fun x => negb (e_signaled x)) (members s g)
         | None => [e]
         end) /\
    s_time (snd r) = s_time s
  end.
Proof.
  intros s id R r. pose proof (reach_inv s R) as I. unfold live, r. cbn [ev_step].
  destruct (em_get (d_events (s_db s)) id) as [e|] eqn:G.
  - destruct (signal_event_spec (s_db s) id e I G) as (A & _ & _ & _ & H & V).
    destruct (signal_event (s_db s) id) as [rr d']. cbn [fst snd s_db s_time] in *. subst rr. split; [reflexivity|]. split; [|split; [|reflexivity]].
    + intros j. rewrite H. destruct (em_get (d_events (s_db s)) j) as [x|]; [|reflexivity].
      unfold grp. destruct (e_group e), (e_group x); destruct (negb (e_signaled e) && _); reflexivity.
    + change (views d' = queued (pending s) (if e_signaled e then [] else match e_group e with Some g => filter (fun x => negb (e_signaled x)) (members s g) | None => [e] end)). rewrite V. unfold pending. change (map notice_of (d_pending (s_db s))) with (views (s_db s)). unfold views, targets, members. destruct (e_signaled e); [reflexivity|].
      destruct (e_group e) as [g|]; [|reflexivity]. f_equal.
      induction (rev (d_events (s_db s))) as [|x l IH]; cbn [filter]; [reflexivity|]. unfold grp at 1.
      destruct (e_group x) as [h|]; [destruct (h =? g)|]; cbn [andb filter]; [|exact IH|exact IH].
      destruct (e_signaled x); cbn [negb]; [exact IH|]. f_equal. exact IH.
  - unfold signal_event. rewrite G. cbn. destruct s; reflexivity.
Qed.
Print Assumptions signal_event_exact.

(** Over any history that does not close it, the deliveries of a notify-signal event and its pending notifications
    account exactly for the times it became signalled: no signal is lost and none is delivered twice. *)
Theorem signals_delivered_exactly_once : forall s id e ops e',
  ev_reachable s -> live s id = Some e -> signal_type e = true ->
  live (ev_run s ops) id = Some e' ->
  (pending_count s id + raised s ops id = delivered s ops id + pending_count (ev_run s ops) id)%nat.
Proof.
  intros s id e ops e' R L T L'.
  assert (PC : forall s0 e0, ev_inv (s_db s0) -> live s0 id = Some e0 -> signal_type e0 = true -> pending_count s0 id = if e_signaled e0 then 1%nat else 0%nat).
  { intros s0 e0 I L0 T0. pose proof (get_In _ _ _ L0) as [Hi Ei].
    unfold signal_type in T0. rewrite <- is_notify_signal_bit in T0. rewrite <- (iv_count _ I e0 Hi T0), Ei. cbn [Nat.add].
    unfold pending_count, pending, cnt. clear. induction (d_pending (s_db s0)) as [|n p IH]; cbn; [reflexivity|].
    destruct (n_event n =? id); cbn; congruence. }
  pose proof (reach_inv s R) as I. clear R. revert s e I L T L'.
  induction ops as [|o ops IH]; intros s e I L T L'; cbn [ev_run raised delivered] in *; [lia|].
  destruct (ev_step s o) as [out s1] eqn:E. cbn [fst snd] in *.
  destruct (step_inv s o out s1 I E) as (I1 & NX & _).
  pose proof (get_In _ _ _ L) as [Hi Ei].
  destruct (step_live s o out s1 id e I E L) as [(_ & _ & D)|(e1 & L1 & EV)].
  - exfalso. assert (Hid : id < d_next (s_db s1)).
    { pose proof (iv_ids _ I) as Q. rewrite Forall_forall in Q. apply Q in Hi. lia. }
    pose proof (run_dead ops s1 id I1 Hid D) as Q. unfold live in L'. congruence.
  - destruct EV as (_ & ET & _ & _ & _ & _ & HS & _).
    assert (T1 : signal_type e1 = true) by (unfold signal_type in *; rewrite ET; exact T).
    specialize (IH s1 e1 I1 L1 T1 L'). rewrite (PC s e I L T), (PC s1 e1 I1 L1 T1) in *.
    assert (U0 : is_up s id = e_signaled e) by (unfold is_up; rewrite L; reflexivity). assert (U1 : is_up s1 id = e_signaled e1) by (unfold is_up, live; rewrite L1; reflexivity). rewrite U0, U1.
    unfold signal_type in T. rewrite <- is_notify_signal_bit in T. destruct (HS T) as [H1 H2]. rewrite Ei in H1, H2.
    destruct (delivers out id).
    + destruct (H1 eq_refl) as [Q1 Q2]. rewrite Q1, Q2 in *.
      cbn [negb andb]. lia.
    + specialize (H2 eq_refl). destruct (e_signaled e); [rewrite (H2 eq_refl) in *; cbn [negb andb]; lia|].
      destruct (e_signaled e1); cbn [negb andb] in *; cbn [negb andb]; lia.
Qed.
Print Assumptions signals_delivered_exactly_once.

(** Case analysis on the outcome of a call. *)
Ltac crunch_out E :=
  unfold out_id, out_unit, svc_poll, svc_read in E; cbn [fst snd] in E;
  repeat (match type of E with context [match ?x with _ => _ end] => destruct x; cbn [fst snd] in E end);
  injection E as <- _; first [reflexivity | discriminate].

Lemma set_timer_out s id k t j :
  delivers (fst (svc_set_timer s id k t)) j = false /\ fst (svc_set_timer s id k t) <> REvent j.
Proof.
  unfold svc_set_timer. destruct k;
    [|destruct (uadd _ _ _); [|split; [reflexivity|discriminate]..]..];
    destruct (db_set_timer _ _ _ _ _) as [[| |] ?]; split; try reflexivity; discriminate.
Qed.

(** Closing a live event: it is gone, and in no continuation is a notification for it delivered, does it become live
    again or is its identifier handed out again. *)
Theorem closed_event_never_notified : forall s id e ops o,
  ev_reachable s -> live s id = Some e ->
  let s1 := snd (ev_step s (OClose id)) in
  fst (ev_step s (OClose id)) = RUnit /\ live s1 id = None /\
  live (ev_run s1 ops) id = None /\
  delivers (fst (ev_step (ev_run s1 ops) o)) id = false /\
  fst (ev_step (ev_run s1 ops) o) <> REvent id.
Proof.
  intros s id e ops o R L s1. pose proof (reach_inv s R) as I. pose proof (get_In _ _ _ L) as [Hi Ei].
  pose proof (iv_ids _ I) as Q. rewrite Forall_forall in Q. apply Q in Hi. pose proof (iv_next _ I) as NX.
  destruct (ev_step s (OClose id)) as [out s1'] eqn:E. cbn [fst snd] in *. subst s1.
  destruct (step_inv s _ _ _ I E) as (I1 & NX1 & _). destruct (close_event (s_db s) id) as [r d'] eqn:C.
  cbn [ev_step] in E. rewrite C in E. injection E as <- <-. destruct (close_inv _ _ _ _ I C) as (_ & _ & _ & _ & _ & H).
  destruct (N.leb_spec RT_EVENT id); [lia|]. destruct H as [ER EG]. unfold live in L. rewrite L in ER. subst r.
  assert (D1 : em_get (d_events d') id = None) by (rewrite EG, N.eqb_refl; reflexivity).
  cbn [s_db fst snd] in *. split; [reflexivity|]. split; [exact D1|].
  set (s1 := MkSys d' (s_time s)). assert (Hid : id < d_next (s_db s1)) by (cbn; lia).
  pose proof (run_dead ops s1 id I1 Hid D1) as D2. split; [exact D2|].
  destruct (run_inv ops s1 I1) as (I2 & NX2 & _). set (s2 := ev_run s1 ops) in *.
  assert (Hid2 : id < d_next (s_db s2)) by lia.
  destruct (ev_step s2 o) as [out s3] eqn:E2. cbn [fst]. split.
  - destruct o; cbn [ev_step] in E2.
    8: { injection E2 as <- _. apply set_timer_out. }
    1-8: solve [crunch_out E2].
    destruct (svc_dispatch (s_db s2) tpl) as [r2 d2] eqn:C2. injection E2 as <- _. cbn [fst].
    destruct (dispatch_spec _ _ _ _ I2 C2) as (_ & _ & dead & _ & H2). destruct r2; try contradiction. destruct n as [n|]; [|reflexivity].
    destruct H2 as (_ & _ & e2 & Ge2 & _). cbn. apply N.eqb_neq. congruence.
  - destruct o; cbn [ev_step] in E2.
    1: { destruct (svc_create (s_db s2) ty tpl fn ctx) as [r2 d2] eqn:C2. injection E2 as <- _. cbn [fst].
         assert (K : forall ty0 g0, create_event (s_db s2) ty0 tpl fn ctx g0 = (r2, d2) -> out_id r2 <> REvent id).
         { intros ty0 g0 Cr. destruct (create_inv _ _ _ _ _ _ _ _ I2 Cr) as (_ & _ & _ & _ & _ & _ & HR). destruct r2 as [i| |]; try discriminate.
           destruct HR as (_ & [(-> & _)|(-> & _)]); cbn; intros X; injection X; lia. }
         unfold svc_create in C2. destruct (ty =? _) in C2; [|destruct (ty =? _) in C2]; eapply K; exact C2. }
    1: { destruct (svc_create_ex (s_db s2) ty tpl fn ctx group) as [r2 d2] eqn:C2. injection E2 as <- _. cbn [fst].
         unfold svc_create_ex in C2. destruct (_ || _) in C2; [injection C2 as <- <-; discriminate|].
         destruct (create_inv _ _ _ _ _ _ _ _ I2 C2) as (_ & _ & _ & _ & _ & _ & HR). destruct r2 as [i| |]; try discriminate.
         destruct HR as (_ & [(-> & _)|(-> & _)]); cbn; intros X; injection X; lia. }
    6: { injection E2 as <- _. apply set_timer_out. }
    1-6: solve [crunch_out E2].
    intros ->.
    destruct (svc_dispatch (s_db s2) tpl) as [r2 d2] eqn:C2. injection E2 as -> _. 
    destruct (dispatch_spec _ _ _ _ I2 C2) as (_ & _ & dead & _ & H2). contradiction.
Qed.
Print Assumptions closed_event_never_notified.

(** ** C13: delivery order *)

(** The next delivery: the first queued notification whose event is live, provided its TPL is above the requested one;
    it has the highest TPL of all live notifications.  With nothing delivered, no live notification is above. *)
Theorem dispatch_highest_first : forall s tpl,
  ev_reachable s ->
  let r := ev_step s (ODispatch tpl) in
  exists dead, Forall (fun x => live s (notice_event x) = None) dead /\
  match fst r with
  | RNotify (Some n) =>
      pending s = dead ++ notice_of n :: pending (snd r) /\
      (exists e, live s (n_event n) = Some e /\ notice_of n = notice_for e) /\
      tpl < n_tpl n /\
      (forall y, In y (pending s) -> live s (notice_event y) <> None -> notice_tpl y <= n_tpl n)
  | RNotify None =>
      pending s = dead ++ pending (snd r) /\
      (forall y, In y (pending s) -> live s (notice_event y) <> None -> notice_tpl y <= tpl)
  | _ => False
  end.
Proof.
  intros s tpl R r. pose proof (reach_inv s R) as I. unfold r. cbn [ev_step].
  destruct (svc_dispatch (s_db s) tpl) as [out d'] eqn:C. destruct (dispatch_spec _ _ _ _ I C) as (_ & _ & dead & FD & H).
  exists (map notice_of dead). split.
  { apply Forall_forall. intros x Hx. apply in_map_iff in Hx. destruct Hx as (n & <- & Hn). rewrite Forall_forall in FD. apply FD. exact Hn. }
  cbn [fst snd]. destruct out; try contradiction.
  assert (DeadNo : forall y, In y (map notice_of dead) -> live s (notice_event y) <> None -> False).
  { intros y Hy HL. apply in_map_iff in Hy. destruct Hy as (m & <- & Hm). rewrite Forall_forall in FD. apply HL. apply FD. exact Hm. }
  destruct n as [n|].
  - destruct H as (EP & LT & e & Ge & VN & _). unfold pending. cbn [s_db]. rewrite EP, map_app. cbn [map].
    split; [reflexivity|]. split; [exists e; auto|]. split; [exact LT|].
    intros y Hy HL. apply in_app_or in Hy. destruct Hy as [Hy|[<-|Hy]]; [elim (DeadNo y Hy HL)|apply N.le_refl|].
    apply in_map_iff in Hy. destruct Hy as (m & <- & Hm).
    pose proof (iv_psorted _ I) as HS. rewrite EP in HS. apply sorted_suffix in HS. inversion HS as [|? ? _ HF]; subst.
    rewrite Forall_forall in HF. apply HF in Hm. apply nb_iff in Hm. cbn. lia.
  - destruct H as (EP & LE & _). unfold pending. cbn [s_db]. rewrite EP, map_app. split; [reflexivity|].
    intros y Hy HL. apply in_app_or in Hy. destruct Hy as [Hy|Hy]; [elim (DeadNo y Hy HL)|].
    apply in_map_iff in Hy. destruct Hy as (m & <- & Hm). cbn. auto.
Qed.
Print Assumptions dispatch_highest_first.

(** Every other call only adds notifications, each behind all those of the same or a higher TPL and ahead of all those
    of a lower TPL; so notifications of one TPL are delivered in the order in which they were queued. *)
Theorem pending_first_in_first_out : forall s o,
  ev_reachable s -> (forall tpl, o <> ODispatch tpl) ->
  exists xs, pending (snd (ev_step s o)) = fold_left enqueue xs (pending s).
Proof.
  intros s o R ND. destruct (ev_step s o) as [out s'] eqn:E. exact (step_grows s o out s' (reach_inv s R) E ND).
Qed.
Print Assumptions pending_first_in_first_out.

(** ** C14: groups *)
Theorem signal_group_exact : forall s g,
  ev_reachable s ->
  let s' := snd (ev_step s (OSignalGroup g)) in
  (forall j, live s' j =
     match live s j with
     | Some x => Some (if match e_group x with Some h => h =? g | None => false end then signalled x else x)
     | None => None
     end) /\
  pending s' = queued (pending s) (filter (fun x => negb (e_signaled x)) (members s g)) /\
  s_time s' = s_time s.
Proof.
  intros s g R s'. pose proof (reach_inv s R) as I. unfold s'. cbn [ev_step fst snd].
  destruct (signal_group_spec (s_db s) g I) as (_ & _ & _ & H & V). split; [|split; [|reflexivity]].
  - intros j. unfold live. cbn [s_db]. rewrite H. destruct (em_get (d_events (s_db s)) j) as [x|]; [|reflexivity].
    unfold grp. destruct (e_group x) as [h|]; [destruct (h =? g)|]; reflexivity.
  - unfold pending. cbn [s_db]. change (map notice_of (d_pending (signal_group (s_db s) g))) with (views (signal_group (s_db s) g)). rewrite V. unfold views, members. f_equal. clear V H.
    induction (rev (d_events (s_db s))) as [|x l IH]; cbn [filter]; [reflexivity|]. unfold grp at 1.
    destruct (e_group x) as [h|]; [destruct (h =? g)|]; cbn [andb filter]; [|exact IH|exact IH].
    destruct (e_signaled x); cbn [negb]; [exact IH|]. f_equal. exact IH.
Qed.
Print Assumptions signal_group_exact.

(** After a group signal every live notify-signal member has exactly one notification pending, every live event
    outside the group has as many as before. *)
Theorem signal_group_all_pending : forall s g id e,
  ev_reachable s -> live s id = Some e -> signal_type e = true ->
  let s' := snd (ev_step s (OSignalGroup g)) in
  (e_group e = Some g -> pending_count s' id = 1%nat) /\
  (e_group e <> Some g -> pending_count s' id = pending_count s id).
Proof.
  intros s g id e R L T s'.
  assert (R' : ev_reachable s').
  { destruct R as (dbg & miss & ops & <-). exists dbg, miss, (ops ++ [OSignalGroup g]). unfold s'.
    generalize (sys_new dbg miss). clear. induction ops as [|o ops IH]; intros s; cbn [ev_run app]; [reflexivity|apply IH]. }
  destruct (signal_group_exact s g R) as (H & _). fold s' in H. specialize (H id). rewrite L in H.
  assert (PC := signalled_event_pending_once s' id _ R' H).
  assert (PS := signalled_event_pending_once s id e R L T). split; intros EG.
  - rewrite EG, N.eqb_refl in PC. apply PC. exact T.
  - assert (NG : (match e_group e with Some h => h =? g | None => false end) = false).
    { destruct (e_group e) as [h|]; [|reflexivity]. apply N.eqb_neq. congruence. }
    rewrite NG in PC. rewrite PC, PS by exact T. reflexivity.
Qed.
Print Assumptions signal_group_all_pending.

(** ** C15: timers *)
Definition fires (s : evsys) (now : N) (e : event) : Prop :=
  due now e \/
  exists id f, live s id = Some f /\ due now f /\ e_signaled f = false /\ e_group f <> None /\ e_group f = e_group e.

(** Exact effect of a timer tick that does not panic: an event becomes signalled iff it is due or an unsignalled due
    timer shares its group; a due timer re-arms one period from now (modulo 2^64) or disarms; nothing else changes. *)
Theorem timer_tick_exact : forall s delta,
  ev_reachable s ->
  let now := (s_time s + delta) mod two64 in
  let r := ev_step s (OTick delta) in
  fst r <> RPanic ->
  s_time (snd r) = now /\
  forall j, match live s j with
  | None => live (snd r) j = None
  | Some e => exists e', live (snd r) j = Some e' /\
      e_id e' = e_id e /\ e_type e' = e_type e /\ e_group e' = e_group e /\ e_tpl e' = e_tpl e /\
      e_fn e' = e_fn e /\ e_ctx e' = e_ctx e /\ e_period e' = e_period e /\
      (e_signaled e' = true <-> e_signaled e = true \/ fires s now e) /\
      (due now e -> e_trigger e' = match e_period e with Some p => Some ((now + p) mod two64) | None => None end) /\
      (~ due now e -> e_trigger e' = e_trigger e)
  end.
Proof.
  intros s delta R now r NP. pose proof (reach_inv s R) as I. unfold r in *. cbn [ev_step] in *. fold now in NP |- *.
  destruct (db_timer_tick (s_db s) now) as [d'|er|] eqn:T; cbn [fst snd] in *; try (elim NP; reflexivity).
  destruct (tick_spec _ _ _ I T) as (_ & _ & _ & H & _). split; [reflexivity|]. intros j. unfold live. cbn [s_db]. rewrite H.
  destruct (em_get (d_events (s_db s)) j) as [e|] eqn:G; [|reflexivity]. cbn [option_map]. eexists. split; [reflexivity|].
  assert (DUE : forall x, dueb now x = true <-> due now x).
  { intros x. unfold dueb, due, timer_type. rewrite is_timer_bit. rewrite andb_true_iff. destruct (e_trigger x) as [t|].
    - rewrite N.leb_le. split; [intros [A B]; split; [exact A|exists t; auto]|intros [A (t' & B & C)]; injection B as <-; auto].
    - split; [intros [_ B]; discriminate|intros [_ (t & B & _)]; discriminate]. }
  unfold ticked. cbn [e_id e_type e_group e_signaled e_tpl e_fn e_ctx e_trigger e_period andb].
  repeat (split; [reflexivity|]). split; [|split].
  - rewrite !orb_true_iff. unfold fires. rewrite (DUE e).
    assert (K : kicked now (d_events (s_db s)) (fun _ => true) e = true <->
      exists id f, live s id = Some f /\ due now f /\ e_signaled f = false /\ e_group f <> None /\ e_group f = e_group e).
    { unfold kicked. rewrite existsb_exists. split.
      - intros (f & Hf & Q). rewrite !andb_true_iff in Q. destruct Q as (((_ & B) & C) & D). exists (e_id f), f.
        split; [apply In_get; [apply I|exact Hf]|]. split; [apply DUE; exact B|]. split; [destruct (e_signaled f); [discriminate|reflexivity]|].
        unfold same_group, grp in D. destruct (e_group f); [|discriminate]. split; [discriminate|]. destruct (e_group e); [|discriminate].
        apply N.eqb_eq in D. congruence.
      - intros (id & f & Lf & B & C & D & F). exists f. split; [apply (get_In _ _ _ Lf)|]. apply DUE in B. rewrite B, C. cbn [andb negb].
        unfold same_group, grp. rewrite <- F. destruct (e_group f); [apply N.eqb_refl|congruence]. }
    rewrite K. tauto.
  - intros D. apply DUE in D. rewrite D. reflexivity.
  - intros D. destruct (dueb now e) eqn:Q; [elim D; apply DUE; exact Q|reflexivity].
Qed.
Print Assumptions timer_tick_exact.

(** In a release build a tick never panics. *)
Theorem timer_tick_release_no_panic : forall s delta,
  ev_reachable s -> d_dbg (s_db s) = false -> fst (ev_step s (OTick delta)) = RUnit.
Proof.
  intros s delta R DB. cbn [ev_step]. destruct (tick_release_ok (s_db s) ((s_time s + delta) mod two64) (reach_inv s R) DB) as (d' & ->). reflexivity.
Qed.
Print Assumptions timer_tick_release_no_panic.

(** Exact effect of SetTimer on a live timer event when the trigger time is representable; other events keep their
    timers, and on anything but a live timer event the call is refused without effect. *)
Theorem set_timer_exact : forall s id k t,
  ev_reachable s -> s_time s + t < two64 ->
  let r := ev_step s (OSetTimer id k t) in
  match live s id with
  | Some e =>
    if timer_type e then
      fst r = RUnit /\ pending (snd r) = pending s /\ s_time (snd r) = s_time s /\
      forall j, live (snd r) j =
        if j =? id then
          Some (MkE (e_id e) (e_type e) (e_group e) (e_signaled e) (e_tpl e) (e_fn e) (e_ctx e)
            (match k with TCancel => None | _ => Some (s_time s + t) end)
            (match k with TPeriodic => Some t | _ => None end))
        else live s j
    else r = (RErr InvalidParameter, s)
  | None => r = (RErr InvalidParameter, s)
  end.
Proof.
  intros s id k t R HB r. pose proof (reach_inv s R) as I. unfold live.
  assert (U : @uadd efi_error (d_dbg (s_db s)) (s_time s) t = Ok (s_time s + t)).
  { unfold uadd. destruct (N.ltb_spec (s_time s + t) two64); [reflexivity|lia]. }
  unfold r. cbn [ev_step]. unfold svc_set_timer. rewrite U. unfold db_set_timer.
  destruct (em_get (d_events (s_db s)) id) as [e|] eqn:G; [|destruct k; cbn; destruct s; reflexivity].
  unfold timer_type. rewrite <- is_timer_bit. destruct (is_timer (e_type e)) eqn:TT; cbn [negb]; [|destruct k; cbn; destruct s; reflexivity].
  destruct k; cbn [is_some negb orb out_unit fst snd s_db s_time set_events d_events]; (split; [reflexivity|]); (split; [reflexivity|]);
    (split; [reflexivity|]); intros j; rewrite get_update, G by (intros; reflexivity); reflexivity.
Qed.
Print Assumptions set_timer_exact.

(** A timer that is not armed stays off, whatever happens, until SetTimer is called for it: it is never due. *)
Theorem disarmed_timer_never_due : forall s id e ops e' now,
  ev_reachable s -> live s id = Some e -> e_trigger e = None ->
  forallb (fun o => negb (sets_timer o id)) ops = true ->
  live (ev_run s ops) id = Some e' -> e_trigger e' = None /\ ~ due now e'.
Proof.
  intros s id e ops e' now R L T F L'. enough (Q : e_trigger e' = None).
  { split; [exact Q|]. intros (_ & t & H & _). congruence. }
  pose proof (reach_inv s R) as I. clear R. revert s e I L T F L'.
  induction ops as [|o ops IH]; intros s e I L T F L'; cbn [ev_run forallb] in *; [unfold live in *; congruence|].
  apply andb_true_iff in F. destruct F as [F1 F2]. destruct (ev_step s o) as [out s1] eqn:E. cbn [fst snd] in *.
  destruct (step_inv s o out s1 I E) as (I1 & NX & _). pose proof (get_In _ _ _ L) as [Hi Ei].
  destruct (step_live s o out s1 id e I E L) as [(_ & _ & D)|(e1 & L1 & EV)].
  - exfalso. assert (Hid : id < d_next (s_db s1)).
    { pose proof (iv_ids _ I) as Q. rewrite Forall_forall in Q. apply Q in Hi. lia. }
    pose proof (run_dead ops s1 id I1 Hid D) as Q. unfold live in L'. congruence.
  - destruct EV as (_ & _ & _ & _ & _ & _ & _ & HT). eapply (IH s1 e1); eauto. apply HT; [|exact T]. rewrite Ei.
    destruct (sets_timer o id); [discriminate|reflexivity].
Qed.
Print Assumptions disarmed_timer_never_due.

(** ** Refuted *)
Definition no_miss : N -> bool := fun _ => false.

(** "A relative timer set for [t] fires no earlier than [t] from now": with a large [t] the sum wraps in a release
    build and the timer fires on the next tick; in a build with overflow checks SetTimer panics. *)
Theorem relative_timer_fires_early_refuted : exists s id t,
  ev_reachable s /\ d_dbg (s_db s) = false /\ t < two64 /\
  let s1 := snd (ev_step s (OSetTimer id TRelative t)) in
  fst (ev_step s (OSetTimer id TRelative t)) = RUnit /\
  match live (snd (ev_step s1 (OTick 1))) id with Some e => e_signaled e = true | None => False end /\
  s_time (snd (ev_step s1 (OTick 1))) < s_time s + t.
Proof.
  exists (ev_run (sys_new false no_miss) [OCreate EVT_TIMER 0 None None; OTick 5]), 1, u64_max.
  split; [exists false, no_miss, [OCreate EVT_TIMER 0 None None; OTick 5]; reflexivity|]. vm_compute. auto.
Qed.
Print Assumptions relative_timer_fires_early_refuted.

(** "A timer tick never panics": with overflow checks on, a periodic timer whose next trigger is not representable
    panics in the timer interrupt. *)
Theorem timer_tick_no_panic_refuted : exists s delta,
  ev_reachable s /\ d_dbg (s_db s) = true /\ fst (ev_step s (OTick delta)) = RPanic.
Proof.
  exists (ev_run (sys_new true no_miss) [OCreate EVT_TIMER 0 None None; OSetTimer 1 TPeriodic u64_max]), u64_max.
  split; [eexists _, _, _; reflexivity|]. vm_compute. auto.
Qed.
Print Assumptions timer_tick_no_panic_refuted.

(** "Closing something that is not a live event is an error": identifiers from 2^63 up always report success. *)
Theorem close_unknown_event_refuted : exists s id,
  ev_reachable s /\ live s id = None /\ d_rt (s_db s) = [] /\ fst (ev_step s (OClose id)) = RUnit.
Proof.
  exists (sys_new false no_miss), (RT_EVENT + 5). split; [exists false, no_miss, []; reflexivity|]. vm_compute. auto.
Qed.
Print Assumptions close_unknown_event_refuted.

(** ** Concrete histories meeting the hypotheses *)
Definition demo_ops : list ev_op :=
  [OCreateEx EVT_NOTIFY_SIGNAL 8 (Some 0x1000) None (Some 77); OCreateEx EVT_NOTIFY_SIGNAL 16 (Some 0x2000) None (Some 77);
   OCreate EVT_NOTIFY_SIGNAL 8 (Some 0x3000) None; OCreate (EVT_TIMER + EVT_NOTIFY_SIGNAL) 16 (Some 0x4000) None;
   OSetTimer 4 TPeriodic 10; OSignal 3; OSignal 1; OTick 12].
Example event_demo :
  let s := ev_run (sys_new true no_miss) demo_ops in
  pending s = [(2, 16, Some 0x2000, None); (4, 16, Some 0x4000, None); (3, 8, Some 0x3000, None); (1, 8, Some 0x1000, None)] /\
  option_map e_trigger (live s 4) = Some (Some 22) /\
  (exists e, live s 1 = Some e /\ signal_type e = true /\ e_signaled e = true /\ e_group e = Some 77) /\
  delivered s [ODispatch 4; ODispatch 4; OTick 10; ODispatch 4] 4 = 2%nat /\
  raised s [ODispatch 4; ODispatch 4; OTick 10; ODispatch 4] 4 = 1%nat.
Proof. vm_compute. split; [reflexivity|]. split; [reflexivity|]. split; [eexists; repeat split; reflexivity|]. auto. Qed.
