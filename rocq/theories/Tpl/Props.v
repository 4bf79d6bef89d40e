(** Priority levels and TPL mutexes: the property theorems (C16, C17). *)
From Coq Require Import Sorting.Sorted.
From Verif Require Import Base.Prelude Event.Model Event.Spec Event.Proofs Event.Main Tpl.Model Tpl.Spec Tpl.Proofs Tpl.Silent.
Local Open Scope N_scope.

(** ** C16: what RestoreTPL runs *)

(** For every interrupt schedule and every notification function: RestoreTPL returns at the requested level, and every
    notification function started meanwhile was started at its own notify TPL, by a RestoreTPL to a strictly lower
    level. *)
Theorem restore_tpl_runs_above : forall w st fuel new st',
  reached w st -> exec w fuel (CRestore new) st = ODone tt st' ->
  m_cur st' = new /\
  forall n at_tpl level alive gs, ran st st' (TRun n at_tpl level alive gs) -> at_tpl = n_tpl n /\ level < n_tpl n.
Proof.
  intros w st fuel new st' R E. pose proof (exec_ok w fuel _ (CRestore new) st (reached_calm w st R)) as H. rewrite E in H.
  destruct H as [F C]. split; [exact C|]. intros n a l al gs (more & Em & Hin). destruct (fr_text _ _ F) as (tr & Et & Ft).
  rewrite Em in Et. apply app_inv_tail in Et. subst. rewrite Forall_forall in Ft. specialize (Ft _ Hin). cbn in Ft. tauto.
Qed.
Print Assumptions restore_tpl_runs_above.

(** For every interrupt schedule: a pending notification is never lost.  After RestoreTPL (or any program, or an
    interrupt) it is still pending, or its function was started, or its event was closed. *)
Theorem pending_never_lost : forall w st fuel c st' x,
  reached w st -> exec w fuel c st = ODone tt st' -> In x (pending (m_sys st)) ->
  In x (pending (m_sys st')) \/
  (exists n at_tpl level alive gs, notice_of n = x /\ ran st st' (TRun n at_tpl level alive gs)) \/
  live (m_sys st') (notice_event x) = None.
Proof.
  intros w st fuel c st' x R E Hx. pose proof (exec_ok w fuel _ c st (reached_calm w st R)) as H. rewrite E in H.
  destruct H as [F _]. unfold live. fold (db st'). destruct (em_get (d_events (db st')) (notice_event x)) eqn:L; [|auto].
  destruct (fr_kept _ _ F x Hx) as [A|A]; [congruence|auto|]. right. left. exact A.
Qed.
Print Assumptions pending_never_lost.

Lemma reached_idle_flag w st : reached w st -> m_prog st = false.
Proof.
  induction 1 as [dbg miss|st fuel p st' R IH E|st fuel new st' R IH E|st fuel d st' R IH E]; [reflexivity|..];
    match type of E with exec w fuel ?c st = _ => pose proof (exec_ok w fuel _ c st (reached_calm w st R)) as H end;
    rewrite E in H; destruct H as [F _]; rewrite (fr_prog _ _ F); exact IH.
Qed.

(** Without interrupts during the call: when RestoreTPL to a lower level returns, nothing above that level is pending,
    and every function it started belonged to an event that was still open. *)
Theorem restore_tpl_drains_partial : forall w st fuel new st',
  reached w st -> silent w -> new < m_cur st -> exec w fuel (CRestore new) st = ODone tt st' ->
  (forall x, In x (pending (m_sys st')) -> notice_tpl x <= new) /\
  (forall n at_tpl level alive gs, ran st st' (TRun n at_tpl level alive gs) -> alive = true).
Proof.
  intros w st fuel new st' R S L E. pose proof (exec_silent w S fuel (CRestore new) st (reached_calm w st R) (reached_idle_flag w st R)) as H.
  rewrite E in H. destruct H as (T & _ & B); [cbn; lia|]. split.
  - intros x Hx. apply in_map_iff in Hx. destruct Hx as (n & <- & Hn). apply (B L n Hn).
  - intros n a l al gs (more & Em & Hin). destruct T as (tr & Et & Ft). rewrite Em in Et. apply app_inv_tail in Et. subst.
    rewrite Forall_forall in Ft. apply (Ft _ Hin).
Qed.
Print Assumptions restore_tpl_drains_partial.

(** Code that runs between services has nothing pending above its own level (below TPL_HIGH_LEVEL, no interrupts). *)
Theorem running_code_nothing_above : forall w st,
  reached w st -> silent w -> m_cur st < TPL_HIGH_LEVEL -> forall x, In x (pending (m_sys st)) -> notice_tpl x <= m_cur st.
Proof.
  intros w st R S. assert (Q : quiet st).
  { induction R as [dbg miss|st fuel p st' R IH E|st fuel new st' R IH E|st fuel d st' R IH E].
    - right. intros n [].
    - pose proof (exec_silent w S fuel (CRun p) st (reached_calm w st R) (reached_idle_flag w st R) IH) as H. rewrite E in H. apply H.
    - pose proof (exec_silent w S fuel (CRestore new) st (reached_calm w st R) (reached_idle_flag w st R) (fun _ => IH)) as H. rewrite E in H. apply H.
    - pose proof (exec_silent w S fuel (CIrq d) st (reached_calm w st R) (reached_idle_flag w st R) IH) as H. rewrite E in H. apply H. }
  intros L x Hx. apply in_map_iff in Hx. destruct Hx as (n & <- & Hn). destruct Q as [Q|Q]; [lia|]. apply (Q n Hn).
Qed.
Print Assumptions running_code_nothing_above.

Lemma reached_quiet w st : reached w st -> silent w -> quiet st.
Proof.
  intros R S. destruct (N.ltb_spec (m_cur st) TPL_HIGH_LEVEL) as [L|L]; [right|left; exact L].
  intros n Hn. apply (running_code_nothing_above w st R S L (notice_of n)). apply in_map. exact Hn.
Qed.

(** So SignalEvent on an open, unsignalled notify-signal event above the caller's level returns only after the event's
    function was started, unless the event was closed meanwhile. *)
Theorem signal_event_runs_before_return : forall w st fuel st' id e,
  reached w st -> silent w -> live (m_sys st) id = Some e -> signal_type e = true -> e_signaled e = false ->
  m_cur st < e_tpl e -> m_cur st < TPL_HIGH_LEVEL ->
  exec w fuel (CRun (PSvc (VSignal id) (fun _ => PDone))) st = ODone tt st' ->
  (exists n at_tpl level alive gs, notice_of n = notice_for e /\ ran st st' (TRun n at_tpl level alive gs)) \/
  live (m_sys st') id = None.
Proof.
  intros w st fuel st' id e R S L T U LT LH E. pose proof (reached_calm w st R) as G. pose proof (reached_idle_flag w st R) as P.
  destruct fuel as [|f]; [discriminate|]. cbn [exec] in E. unfold do_run in E. rewrite (poll_silent w S) in E. cbn [obind] in E.
  set (s0 := bump_clock st) in *. assert (G0 : calm s0) by exact G.
  unfold do_svc, panic_if in E.
  pose proof (step_s w S f (exec_silent w S f) (OSignal id) s0 G0 P) as H1. pose proof (step_call_ok w (exec w f) (exec_ok w f _) (OSignal id) s0 G0 ltac:(discriminate)) as H1'.
  destruct (db_call w (exec w f) (fun s => ev_step s (OSignal id)) s0) as [r s1|s1|]; cbn [obind] in E; [|discriminate|discriminate].
  cbn [may] in H1. destruct H1 as (Er & _ & Q1 & P1 & C1 & G1 & F1). destruct H1' as [FF1 _].
  pose proof (nudge_s w S f (exec_silent w S f) s1 G1 P1) as H2. destruct (nudge w (exec w f) s1) as [[] s2|s2|]; cbn [obind] in E; [|discriminate|discriminate].
  destruct H2 as (_ & Q2 & P2 & C2 & F2).
  destruct (match r with RPanic => OPanicked s2 | _ => ODone r s2 end) as [r' s2'|s2'|] eqn:EP; cbn [obind] in E; [|discriminate|discriminate].
  assert (s2' = s2) by (destruct r; congruence). subst s2'. clear EP.
  destruct f as [|f]; [discriminate|]. cbn [exec] in E. unfold do_run in E. rewrite (poll_silent w S) in E. cbn [obind] in E. injection E as <-.
  (* the notification was queued *)
  assert (Hq : In (notice_for e) (pending (snd (ev_step (m_sys s0) (OSignal id))))).
  { pose proof (get_In _ _ _ L) as [Hi Ei]. cbn [ev_step]. change (m_sys s0) with (m_sys st).
    destruct (signal_event_spec (s_db (m_sys st)) id e (proj1 G) L) as (_ & I' & _ & _ & HG & _).
    destruct (signal_event (s_db (m_sys st)) id) as [rs d'] eqn:ES. cbn [snd] in *. specialize (HG id). unfold live in L. rewrite L, U, N.eqb_refl in HG. cbn in HG.
    pose proof (get_In _ _ _ HG) as [Hi' Ei']. unfold signal_type in T. rewrite <- is_notify_signal_bit in T.
    pose proof (iv_count _ I' _ Hi' T) as C. cbn in C. unfold pending. cbn [s_db].
    destruct (existsb (fun y => n_event y =? id) (d_pending d')) eqn:EX.
    - apply existsb_exists in EX. destruct EX as (n & Hn & En). apply N.eqb_eq in En. apply in_map_iff. exists n. split; [|exact Hn].
      rewrite (iv_pend _ I' n (with_signaled true e) Hn ltac:(congruence)). reflexivity.
    - apply cnt_zero in EX. rewrite Ei in C. congruence. }
  set (mid := set_sys s0 (snd (ev_step (m_sys s0) (OSignal id)))) in *.
  assert (GM : calm mid).
  { destruct (ev_step (m_sys s0) (OSignal id)) as [o s'] eqn:EST. destruct (step_inv (m_sys s0) (OSignal id) o s' (proj1 G) EST) as (I' & _).
    split; [exact I'|apply G]. }
  assert (FM : @frame (fun _ => 0%nat) mid s2) by (eapply frame_trans; [exact GM|exact F1|exact F2]).
  unfold live. fold (db (bump_clock s2)). destruct (em_get (d_events (db (bump_clock s2))) id) eqn:LL; [|auto]. left.
  assert (EID : notice_event (notice_for e) = id) by (apply get_In in L; apply L).
  destruct (fr_kept _ _ FM (notice_for e) Hq) as [A|A].
  - rewrite EID. intros X. change (db (bump_clock s2)) with (db s2) in LL. congruence.
  - exfalso. apply in_map_iff in A. destruct A as (n & En & Hn).
    destruct Q2 as [Q2|Q2]; [rewrite C2, C1 in Q2; change (m_cur s0) with (m_cur st) in Q2; lia|].
    specialize (Q2 n Hn). rewrite C2, C1 in Q2. change (m_cur s0) with (m_cur st) in Q2.
    assert (n_tpl n = e_tpl e) by (pose proof (f_equal notice_tpl En) as X; exact X). lia.
  - destruct A as (n & t & l & al & gs & Q & A). exists n, t, l, al, gs. split; [exact Q|]. exact A.
Qed.
Print Assumptions signal_event_runs_before_return.

(** Raise/restore pairs nest to any depth, around any service calls, for every interrupt schedule: the level on return
    is the level before. *)
Lemma calls_level w body : forall k fuel st st', calm st -> exec w fuel (CRun (calls body k)) st = ODone tt st' ->
  exists fuel' s1, calm s1 /\ m_cur s1 = m_cur st /\ exec w fuel' (CRun k) s1 = ODone tt st'.
Proof.
  induction body as [|o r IH]; intros k fuel st st' G E; cbn [calls] in E; [eauto|].
  destruct fuel as [|f]; [discriminate|]. cbn [exec] in E. unfold do_run in E.
  pose proof (poll_ok w (exec w f) (exec_ok w f _) st G) as PO. destruct (poll w (exec w f) st) as [[] s0|s0|]; cbn [obind] in E; [|discriminate|discriminate].
  destruct PO as [F0 C0]. pose proof (fr_good _ _ F0) as G0.
  pose proof (svc_ok w (exec w f) (exec_ok w f _) o s0 G0) as S. destruct (do_svc w (exec w f) o s0) as [a s1|s1|]; cbn [obind] in E; [|discriminate|discriminate].
  destruct S as [F1 C1]. destruct (IH k f s1 st' (fr_good _ _ F1) E) as (f' & s2 & G2 & C2 & E2). exists f', s2. split; [exact G2|]. split; [congruence|exact E2].
Qed.

Lemma nested_level w ts : forall body k fuel st st', calm st -> exec w fuel (CRun (nested ts body k)) st = ODone tt st' ->
  exists fuel' s1, calm s1 /\ m_cur s1 = m_cur st /\ exec w fuel' (CRun k) s1 = ODone tt st'.
Proof.
  induction ts as [|t r IH]; intros body k fuel st st' G E; cbn [nested] in E; [eapply calls_level; eauto|].
  destruct fuel as [|f]; [discriminate|]. cbn [exec] in E. unfold do_run in E.
  pose proof (poll_ok w (exec w f) (exec_ok w f _) st G) as PO. destruct (poll w (exec w f) st) as [[] s0|s0|]; cbn [obind] in E; [|discriminate|discriminate].
  destruct PO as [F0 C0]. pose proof (fr_good _ _ F0) as G0.
  pose proof (raise_ok w (exec w f) (exec_ok w f _) t s0 G0) as S. destruct (do_raise w (exec w f) t s0) as [a s1|s1|]; cbn [obind] in E; [|discriminate|discriminate].
  destruct S as [F1 (-> & C1 & _)]. destruct (IH body _ f s1 st' (fr_good _ _ F1) E) as (f' & s2 & G2 & C2 & E2).
  destruct f' as [|f']; [discriminate|]. cbn [exec] in E2. unfold do_run in E2.
  pose proof (poll_ok w (exec w f') (exec_ok w f' _) s2 G2) as PO. destruct (poll w (exec w f') s2) as [[] s3|s3|]; cbn [obind] in E2; [|discriminate|discriminate].
  destruct PO as [F3 C3]. pose proof (fr_good _ _ F3) as G3. pose proof (exec_ok w f' _ (CRestore (m_cur s0)) s3 G3) as S.
  destruct (exec w f' (CRestore (m_cur s0)) s3) as [[] s4|s4|]; cbn [obind] in E2; [|discriminate|discriminate]. destruct S as [F4 C4]. cbn in C4.
  exists f', s4. split; [apply (fr_good _ _ F4)|]. split; [congruence|exact E2].
Qed.

Theorem raise_restore_nest : forall w st fuel ts body st',
  reached w st -> exec w fuel (CRun (nested ts body PDone)) st = ODone tt st' -> m_cur st' = m_cur st.
Proof.
  intros w st fuel ts body st' R E. destruct (nested_level w ts body PDone fuel st st' (reached_calm w st R) E) as (f & s1 & G1 & C1 & E1).
  destruct f as [|f]; [discriminate|]. cbn [exec] in E1. unfold do_run in E1.
  pose proof (poll_ok w (exec w f) (exec_ok w f _) s1 G1) as PO. destruct (poll w (exec w f) s1) as [[] s2|s2|]; cbn [obind] in E1; [|discriminate|discriminate].
  injection E1 as <-. destruct PO as [_ C2]. congruence.
Qed.
Print Assumptions raise_restore_nest.

(** ** C17: TPL mutexes *)

(** For every interrupt schedule and every notification function: at most one guard of a mutex is alive, in every
    reached state, at the entry of every notification function ever started, and where an execution panics. *)
Theorem mutex_one_guard : forall w st, reached w st ->
  NoDup (holders st) /\
  (forall fuel c st', exec w fuel c st = ODone tt st' \/ exec w fuel c st = OPanicked st' ->
     NoDup (holders st') /\
     forall n at_tpl level alive gs, ran st st' (TRun n at_tpl level alive gs) -> NoDup (map fst gs)).
Proof.
  intros w st R. pose proof (reached_calm w st R) as G. split; [apply G|]. intros fuel c st' E.
  pose proof (exec_ok w fuel _ c st G) as H. assert (X : text st st' /\ minv st').
  { destruct E as [E|E]; rewrite E in H; [destruct H as [F _]; split; [apply F|apply (fr_good _ _ F)]|exact H]. }
  destruct X as [(tr & Et & Ft) M]. split; [apply M|]. intros n a l al gs (more & Em & Hin).
  rewrite Em in Et. apply app_inv_tail in Et. subst. rewrite Forall_forall in Ft. specialize (Ft _ Hin). cbn in Ft. tauto.
Qed.
Print Assumptions mutex_one_guard.

(** For every interrupt schedule: a successful try_lock leaves the TPL at the mutex's level and the guard remembers the
    level before; a failed one leaves the level as it was. *)
Theorem mutex_try_lock : forall w st fuel m r st',
  reached w st -> do_try_lock w (exec w fuel) m st = ODone r st' ->
  if r then m_cur st' = w_level w m /\ (exists g, m_guards st' = (m, m_cur st) :: g) /\ NoDup (holders st')
  else m_cur st' = m_cur st.
Proof.
  intros w st fuel m r st' R E. pose proof (try_lock_ok w (exec w fuel) (exec_ok w fuel _) m st (reached_calm w st R)) as H. rewrite E in H.
  destruct H as [F H]. destruct r; [|exact H]. destruct H as [A B]. split; [exact A|]. split; [exact B|apply (fr_good _ _ F)].
Qed.
Print Assumptions mutex_try_lock.

(** For every interrupt schedule: dropping a guard leaves the TPL at the level the guard remembers. *)
Theorem mutex_drop_restores : forall w st fuel m p st',
  reached w st -> In (m, p) (m_guards st) -> do_drop w (exec w fuel) m st = ODone tt st' -> m_cur st' = p.
Proof.
  intros w st fuel m p st' R Hin E. pose proof (reached_calm w st R) as G.
  pose proof (drop_ok w (exec w fuel) (exec_ok w fuel _) m st G) as H. rewrite E in H. destruct H as [_ H].
  destruct (take_guard m (m_guards st)) as [[q g]|] eqn:T.
  - destruct (take_guard_spec _ _ _ _ T) as (a & b & EG & _ & Na). destruct G as [_ [ND _]]. unfold held in *.
    rewrite EG in Hin, ND. rewrite map_app in ND. cbn in ND. apply NoDup_remove_2 in ND.
    apply in_app_or in Hin. destruct Hin as [Hin|[Hin|Hin]].
    + elim Na. apply in_map_iff. exists (m, p). auto.
    + congruence.
    + elim ND. rewrite <- map_app. apply in_map_iff. exists (m, p). split; [reflexivity|]. apply in_or_app. auto.
  - apply take_guard_none in T. elim T. apply in_map_iff. exists (m, p). auto.
Qed.
Print Assumptions mutex_drop_restores.

Lemma filter_idle st st' : idle st st' -> live_pending st' = live_pending st.
Proof.
  intros (_ & _ & _ & _ & dead & p & E1 & F1 & E3). unfold live_pending, live, pending. unfold db in *. rewrite E3. cbn [s_db set_pending d_events d_pending].
  rewrite E1, map_app, filter_app. replace (filter _ (map notice_of dead)) with (@nil notice); [reflexivity|]. symmetry.
  clear -F1. induction F1 as [|n l H _ IH]; cbn; [reflexivity|]. rewrite H. exact IH.
Qed.

(** Without interrupts: try_lock on a held mutex fails and changes nothing that code can see. *)
Theorem mutex_try_lock_held : forall w st fuel m r st',
  reached w st -> silent w -> In m (holders st) -> m_cur st <= w_level w m ->
  do_try_lock w (exec w fuel) m st = ODone r st' -> r = false /\ same_for_code st st'.
Proof.
  intros w st fuel m r st' R S Hm LV E. pose proof (reached_calm w st R) as G. pose proof (reached_idle_flag w st R) as P.
  pose proof (reached_quiet w st R S) as Q. assert (B : m_bits st m = true) by (destruct G as [_ [_ B]]; apply B; exact Hm).
  assert (Done : forall s, idle st s -> m_cur s = m_cur st -> same_for_code st s).
  { intros s I C. pose proof (filter_idle _ _ I) as X. destruct (idle_events _ _ I) as (A1 & _ & A3). destruct I as (K1 & K2 & K3 & K4 & _).
    unfold same_for_code, db in *. repeat split; auto. }
  unfold do_try_lock in E. destruct (w_sdk w m).
  - rewrite B in E. injection E as <- <-. split; [reflexivity|]. apply Done; [apply idle_refl|reflexivity].
  - pose proof (raise_silent w S (exec w fuel) (w_level w m) st) as RS. destruct (do_raise w (exec w fuel) (w_level w m) st) as [prev s1|s1|]; cbn [obind] in E; [|discriminate|discriminate].
    destruct RS as (-> & C1 & LE & LH & S1). rewrite (poll_silent w S) in E. cbn [obind] in E.
    assert (S2 : same_core st (bump_clock s1)) by (unfold same_core in *; cbn; tauto).
    replace (m_bits (bump_clock s1) m) with true in E by (destruct S2 as (_ & _ & X & _); rewrite X; auto).
    pose proof (restore_idle w S fuel (m_cur st) (bump_clock s1)) as RI.
    destruct (exec w fuel (CRestore (m_cur st)) (bump_clock s1)) as [[] s2|s2|]; cbn [obind] in E; [|discriminate|discriminate].
    injection E as <- <-. split; [reflexivity|]. destruct RI as (C2 & I2).
    + destruct S2 as (_ & X & _). congruence.
    + cbn. lia.
    + cbn. lia.
    + cbn. intros LT. destruct Q as [Q|Q]; [lia|]. eapply core_below; eauto.
    + apply Done; [eapply core_idle_trans; eauto|exact C2].
Qed.
Print Assumptions mutex_try_lock_held.

(** ** Where the code falls short *)
Definition final (o : outcome unit) (st : mach) : mach := match o with ODone _ s => s | OPanicked s => s | OFuel => st end.
Definition returns (o : outcome unit) : bool := match o with ODone _ _ => true | _ => false end.
Definition panics (o : outcome unit) : bool := match o with OPanicked _ => true | _ => false end.
Lemma reached_final w st fuel p : reached w st -> returns (exec w fuel (CRun p) st) = true -> reached w (final (exec w fuel (CRun p) st) st).
Proof. intros R H. destruct (exec w fuel (CRun p) st) as [[] s|s|] eqn:E; cbn in *; try discriminate. eapply reached_run; eauto. Qed.
Lemma returns_eq o st : returns o = true -> o = ODone tt (final o st).
Proof. destruct o as [[] s|s|]; cbn; intros; congruence. Qed.

Definition no_miss : N -> bool := fun _ => false.
(** A timer interrupt at the [k]-th opportunity, reporting 10 units. *)
Definition one_irq (cb : mach -> notif -> prog) (k : N) : world :=
  MkW cb (fun st => if m_clock st =? k then Some 10 else None) (fun _ => 16) (fun _ => false).

(** A timer event at TPL 16, due after 5 units, then TPL 8. *)
Definition arm : prog :=
  PSvc (VCreate 0x80000200 16 (Some 1) None) (fun _ => PSvc (VSetTimer 1 TRelative 5) (fun _ => PRaise 8 (fun _ => PDone))).
Definition lost_w : world := one_irq (fun _ _ => PDone) 26.
Definition armed : mach := final (exec lost_w 60 (CRun arm) (mach_new false no_miss)) (mach_new false no_miss).

(** With interrupts the drain guarantee fails: a timer interrupt between the moment RestoreTPL found the queue empty and
    the moment it clears EVENT_NOTIFIES_IN_PROGRESS queues a notification that neither dispatches; RestoreTPL returns
    with it pending above the new level (until the next RestoreTPL). *)
Theorem restore_tpl_drains_refuted : exists w st fuel st',
  reached w st /\ 4 < m_cur st /\ exec w fuel (CRestore 4) st = ODone tt st' /\ waiting_above st' 4 /\ m_trace st' = [].
Proof.
  exists lost_w, armed, 60%nat, (final (exec lost_w 60 (CRestore 4) armed) armed).
  split; [apply reached_final; [apply reached_new|vm_compute; reflexivity]|]. split; [vm_compute; reflexivity|].
  split; [apply returns_eq; vm_compute; reflexivity|]. split; [|vm_compute; reflexivity].
  exists (1, 16, Some 1, None). split; [vm_compute; auto|]. split; [vm_compute; discriminate|vm_compute; reflexivity].
Qed.
Print Assumptions restore_tpl_drains_refuted.

(** An event at TPL 8 is signalled; a timer event at TPL 20 has a function that closes it. *)
Definition closer (st : mach) (n : notif) : prog := if n_event n =? 2 then PSvc (VClose 1) (fun _ => PDone) else PDone.
Definition two_events : prog :=
  PRaise 16 (fun _ => PSvc (VCreate 0x200 8 (Some 1) None) (fun _ => PSvc (VCreate 0x80000200 20 (Some 2) None) (fun _ =>
  PSvc (VSetTimer 2 TRelative 5) (fun _ => PSvc (VSignal 1) (fun _ => PDone))))).
Definition before_restore (k : N) : mach := final (exec (one_irq closer k) 60 (CRun two_events) (mach_new false no_miss)) (mach_new false no_miss).

(** With interrupts, an event closed by a higher-priority function after its notification was taken from the queue still
    has its function called. *)
Theorem closed_event_callback_refuted : exists w st fuel st' n at_tpl level gs,
  reached w st /\ exec w fuel (CRestore 4) st = ODone tt st' /\ ran st st' (TRun n at_tpl level false gs).
Proof.
  exists (one_irq closer 62), (before_restore 62), 60%nat, (final (exec (one_irq closer 62) 60 (CRestore 4) (before_restore 62)) (before_restore 62)).
  exists (MkNt 1 8 (Some 1) None 0), 8, 4, [].
  split; [apply reached_final; [apply reached_new|vm_compute; reflexivity]|].
  split; [apply returns_eq; vm_compute; reflexivity|].
  exists (m_trace (final (exec (one_irq closer 62) 60 (CRestore 4) (before_restore 62)) (before_restore 62))). split; [vm_compute; reflexivity|vm_compute; auto].
Qed.
Print Assumptions closed_event_callback_refuted.

(** ... or RestoreTPL panics, on the unwrap of the closed event's type. *)
Theorem restore_tpl_no_panic_refuted : exists w st fuel,
  reached w st /\ 4 < m_cur st /\ panics (exec w fuel (CRestore 4) st) = true /\
  forall s n, w_cb w s n <> PPanic.
Proof.
  exists (one_irq closer 54), (before_restore 54), 60%nat.
  split; [apply reached_final; [apply reached_new|vm_compute; reflexivity]|].
  split; [vm_compute; reflexivity|]. split; [vm_compute; reflexivity|].
  intros s n. cbn. unfold closer. destruct (_ =? _); discriminate.
Qed.
Print Assumptions restore_tpl_no_panic_refuted.

(** The SDK mutex restores the TPL before it clears its flag: a notification function dispatched by that very restore
    finds the mutex locked although its guard is being dropped, and [lock()] panics.  The core mutex, in the same
    program, does not. *)
Definition lock_world (sdk : bool) : world :=
  MkW (fun _ _ => PLock 7 (PDrop 7 PDone)) (fun _ => None) (fun _ => 16) (fun _ => sdk).
Definition lock_signal_drop : prog :=
  PSvc (VCreate 0x200 8 (Some 1) None) (fun _ => PLock 7 (PSvc (VSignal 1) (fun _ => PDrop 7 PDone))).
Theorem sdk_mutex_drop_reentrant_refuted :
  reached (lock_world true) (mach_new false no_miss) /\ silent (lock_world true) /\
  panics (exec (lock_world true) 60 (CRun lock_signal_drop) (mach_new false no_miss)) = true /\
  returns (exec (lock_world false) 60 (CRun lock_signal_drop) (mach_new false no_miss)) = true.
Proof. split; [apply reached_new|]. split; [intros s; reflexivity|]. split; vm_compute; reflexivity. Qed.
Print Assumptions sdk_mutex_drop_reentrant_refuted.

(** Guards dropped out of order: the second drop restores a higher TPL than the current one, and panics. *)
Definition two_locks : world := MkW (fun _ _ => PDone) (fun _ => None) (fun m => if m =? 1 then 8 else 16) (fun _ => false).
Theorem drop_order_panics_refuted :
  panics (exec two_locks 60 (CRun (PLock 1 (PLock 2 (PDrop 1 (PDrop 2 PDone))))) (mach_new false no_miss)) = true /\
  returns (exec two_locks 60 (CRun (PLock 1 (PLock 2 (PDrop 2 (PDrop 1 PDone))))) (mach_new false no_miss)) = true.
Proof. split; vm_compute; reflexivity. Qed.
Print Assumptions drop_order_panics_refuted.

(** A try_lock below the current TPL panics instead of failing. *)
Theorem try_lock_high_tpl_refuted : exists w st, reached w st /\ silent w /\ w_level w 1 < m_cur st /\
  panics (exec w 60 (CRun (PTryLock 1 (fun _ => PDone))) st) = true.
Proof.
  exists two_locks, (final (exec two_locks 60 (CRun (PRaise 16 (fun _ => PDone))) (mach_new false no_miss)) (mach_new false no_miss)).
  split; [apply reached_final; [apply reached_new|vm_compute; reflexivity]|]. split; [intros s; reflexivity|]. split; vm_compute; reflexivity.
Qed.
Print Assumptions try_lock_high_tpl_refuted.

(** ** The hypotheses above are met *)

(** Three events at TPL 8, 16, 20 signalled at TPL 31; the function of the first signals a fourth at TPL 12. *)
Definition demo_w : world :=
  MkW (fun _ n => if n_event n =? 1 then PSvc (VSignal 4) (fun _ => PDone) else PLock 3 (PDrop 3 PDone)) (fun _ => None) (fun _ => 20) (fun m => m =? 4).
Definition demo_setup : prog :=
  PRaise 31 (fun _ =>
  PSvc (VCreate 0x200 8 (Some 1) None) (fun _ => PSvc (VCreate 0x200 16 (Some 2) None) (fun _ => PSvc (VCreate 0x200 20 (Some 3) None) (fun _ =>
  PSvc (VCreate 0x200 12 (Some 4) None) (fun _ => PSvc (VSignal 1) (fun _ => PSvc (VSignal 2) (fun _ => PSvc (VSignal 3) (fun _ => PDone)))))))).
Definition demo_st : mach := final (exec demo_w 80 (CRun demo_setup) (mach_new false no_miss)) (mach_new false no_miss).
Example demo_reached : reached demo_w demo_st /\ silent demo_w /\ m_cur demo_st = 31 /\ length (pending (m_sys demo_st)) = 3%nat.
Proof.
  split; [apply reached_final; [apply reached_new|vm_compute; reflexivity]|]. split; [intros s; reflexivity|]. split; vm_compute; reflexivity.
Qed.
(** Restoring to 4 runs 20, 16, 8 and, from inside the last, 12; restoring to 10 leaves the one at 8 pending. *)
Example demo_restore :
  let s := final (exec demo_w 80 (CRestore 4) demo_st) demo_st in
  returns (exec demo_w 80 (CRestore 4) demo_st) = true /\ pending (m_sys s) = [] /\ m_cur s = 4 /\
  map (fun t => match t with TRun n a l al _ => (n_event n, a, l, al) end) (rev (m_trace s)) = [(3, 20, 4, true); (2, 16, 4, true); (1, 8, 4, true); (4, 12, 8, true)].
Proof. vm_compute. repeat split; reflexivity. Qed.
Example demo_restore_10 :
  let s := final (exec demo_w 80 (CRestore 10) demo_st) demo_st in
  returns (exec demo_w 80 (CRestore 10) demo_st) = true /\ map notice_tpl (pending (m_sys s)) = [8] /\ m_cur s = 10.
Proof. vm_compute. repeat split; reflexivity. Qed.
(** A held mutex: the guard remembers TPL 4, a second try_lock fails. *)
Definition locked_st : mach := final (exec demo_w 80 (CRun (PLock 3 PDone)) (mach_new false no_miss)) (mach_new false no_miss).
Example demo_mutex :
  reached demo_w locked_st /\ m_guards locked_st = [(3, 4)] /\ m_cur locked_st = 20 /\
  (match do_try_lock demo_w (exec demo_w 80) 3 locked_st with ODone r s => r = false /\ m_cur s = 20 | _ => False end) /\
  (match do_drop demo_w (exec demo_w 80) 3 locked_st with ODone _ s => m_cur s = 4 /\ m_guards s = [] | _ => False end).
Proof.
  split; [apply reached_final; [apply reached_new|vm_compute; reflexivity]|]. split; [vm_compute; reflexivity|]. split; [vm_compute; reflexivity|].
  split; vm_compute; auto.
Qed.
Example demo_nested : returns (exec demo_w 80 (CRun (nested [8; 16; 31] [VSignal 1; VSignal 4] PDone)) (final (exec demo_w 80 (CRestore 4) demo_st) demo_st)) = true.
Proof. vm_compute. reflexivity. Qed.
