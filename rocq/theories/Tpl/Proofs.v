(** Properties of the interpreter that hold for every interrupt schedule. *)
From Coq Require Import Sorting.Sorted.
From Verif Require Import Base.Prelude Event.Model Event.Spec Event.Proofs Event.Main Tpl.Model Tpl.Spec.
Local Open Scope N_scope.

Definition db (st : mach) : evdb := s_db (m_sys st).
Definition held (st : mach) (m : N) : Prop := In m (map fst (m_guards st)).
Definition minv (st : mach) : Prop :=
  NoDup (map fst (m_guards st)) /\ (forall m, held st m -> m_bits st m = true).


Definition tgood (t : tevent) : Prop := match t with TRun n at_tpl level _ gs => level < n_tpl n /\ at_tpl = n_tpl n /\ NoDup (map fst gs) end.
Definition text (st st' : mach) : Prop := exists tr, m_trace st' = tr ++ m_trace st /\ Forall tgood tr.

Definition traced (st st' : mach) (x : notice) : Prop :=
  exists n a l b gs, notice_of n = x /\ ran st st' (TRun n a l b gs).

(** Database part of the frame. *)
Definition dframe (d d' : evdb) : Prop :=
  d_next d <= d_next d' /\
  (forall id e', id < d_next d -> em_get (d_events d') id = Some e' ->
     exists e, em_get (d_events d) id = Some e /\ e_type e' = e_type e).

Lemma text_refl st : text st st.
Proof. exists []. split; [reflexivity|constructor]. Qed.
Lemma text_same st st' : m_trace st' = m_trace st -> text st st'.
Proof. intros E. exists []. rewrite E. split; [reflexivity|constructor]. Qed.
Lemma text_trans a b c : text a b -> text b c -> text a c.
Proof.
  intros (x & Ex & Fx) (y & Ey & Fy). exists (y ++ x). split; [rewrite Ey, Ex, app_assoc; reflexivity|]. apply Forall_app. auto.
Qed.
Lemma dframe_refl d : dframe d d.
Proof. split; [lia|]. eauto. Qed.
Lemma dframe_trans a b c : dframe a b -> dframe b c -> dframe a c.
Proof.
  intros (A1 & A2) (B1 & B2). split; [lia|]. intros id e' Hid Ge. destruct (B2 id e' ltac:(lia) Ge) as (e1 & G1 & T1).
  destruct (A2 id e1 Hid G1) as (e0 & G0 & T0). exists e0. split; [exact G0|congruence].
Qed.

Lemma traced_left a b c x : text b c -> traced a b x -> traced a c x.
Proof.
  intros (tr & E & _) (n & t & l & al & gs & Q & more & E' & Hin). exists n, t, l, al, gs. split; [exact Q|]. exists (tr ++ more).
  split; [rewrite E, E', app_assoc; reflexivity|apply in_or_app; auto].
Qed.
Lemma traced_right a b c x : text a b -> traced b c x -> traced a c x.
Proof.
  intros (tr & E & _) (n & t & l & al & gs & Q & more & E' & Hin). exists n, t, l, al, gs. split; [exact Q|]. exists (more ++ tr).
  split; [rewrite E', E, app_assoc; reflexivity|apply in_or_app; auto].
Qed.

Lemma clear_db d id r d' : clear_signal d id = (r, d') -> d_next d' = d_next d /\ d_pending d' = d_pending d /\
  forall j, em_get (d_events d') j = if j =? id then option_map (with_signaled false) (em_get (d_events d) id) else em_get (d_events d) j.
Proof.
  unfold clear_signal. destruct (em_get (d_events d) id) as [e|] eqn:G; intros E; injection E as _ <-.
  - split; [reflexivity|]. split; [reflexivity|]. intros j. cbn [set_events d_events]. rewrite get_update by (intros; reflexivity). rewrite G. reflexivity.
  - split; [reflexivity|]. split; [reflexivity|]. intros j. destruct (N.eqb_spec j id); [subst; exact G|reflexivity].
Qed.

Section Inflight.
(** Notifications taken from the queue whose event is still marked signalled (see Event/Proofs.v). *)
Context {ex : N -> nat}.
Notation ev_inv := (@evi ex).
Definition good (st : mach) : Prop := ev_inv (db st) /\ minv st.

Record frame (st st' : mach) : Prop := {
  fr_good : good st';
  fr_prog : m_prog st' = m_prog st;
  fr_text : text st st';
  fr_db : dframe (db st) (db st');
  fr_kept : forall x, In x (pending (m_sys st)) -> em_get (d_events (db st')) (notice_event x) <> None ->
     In x (pending (m_sys st')) \/ traced st st' x;
  fr_res : forall m, m_bits st m = true -> ~ held st m -> m_bits st' m = true /\ ~ held st' m
}.

Lemma frame_refl st : good st -> frame st st.
Proof.
  intros G. constructor; auto using text_refl, dframe_refl.
Qed.

Lemma pend_next st x : good st -> In x (pending (m_sys st)) -> notice_event x < d_next (db st).
Proof.
  intros [I _] Hx. apply in_map_iff in Hx. destruct Hx as (n & <- & Hn). pose proof (iv_pids _ I) as Q. rewrite Forall_forall in Q.
  apply (Q n Hn).
Qed.

Lemma frame_trans a b c : good a -> frame a b -> frame b c -> frame a c.
Proof.
  intros GA F1 F2. constructor.
  - apply F2.
  - rewrite (fr_prog _ _ F2). apply F1.
  - eapply text_trans; [apply F1|apply F2].
  - eapply dframe_trans; [apply F1|apply F2].
  - intros x Hx Lx. destruct (em_get (d_events (db c)) (notice_event x)) as [e|] eqn:E; [|congruence].
    pose proof (pend_next a x GA Hx) as Hid.
    destruct (fr_db _ _ F2) as (NX & TY). destruct (fr_db _ _ F1) as (NX1 & _).
    destruct (TY (notice_event x) e ltac:(lia) E) as (e1 & G1 & _).
    destruct (fr_kept _ _ F1 x Hx) as [H|H]; [congruence| |].
    + destruct (fr_kept _ _ F2 x H) as [H2|H2]; [congruence|auto|]. right. eapply traced_right; [apply F1|exact H2].
    + right. eapply traced_left; [apply F2|exact H].
  - intros m Hb Hh. destruct (fr_res _ _ F1 m Hb Hh) as [Hb1 Hh1]. apply (fr_res _ _ F2 m Hb1 Hh1).
Qed.

(** ** A small program logic *)
Definition okc {A} (Q : A -> mach -> Prop) (st : mach) (o : outcome A) : Prop :=
  match o with
  | ODone a st' => frame st st' /\ Q a st'
  | OPanicked st' => text st st' /\ minv st'
  | OFuel => True
  end.

Lemma okc_bind {A B} (Q1 : A -> mach -> Prop) (Q : B -> mach -> Prop) st o (f : A -> mach -> outcome B) :
  good st -> okc Q1 st o -> (forall a st1, frame st st1 -> good st1 -> Q1 a st1 -> okc Q st1 (f a st1)) -> okc Q st (obind o f).
Proof.
  intros G H K. destruct o as [a st1|st1|]; cbn in *; auto. destruct H as [F HQ].
  specialize (K a st1 F (fr_good _ _ F) HQ). destruct (f a st1) as [b st2|st2|]; cbn in *; auto.
  - destruct K as [F2 HQ2]. split; [eapply frame_trans; eauto|exact HQ2].
  - destruct K as [T M]. split; [eapply text_trans; [apply F|exact T]|exact M].
Qed.

Lemma okc_weaken {A} (Q1 Q : A -> mach -> Prop) st o : okc Q1 st o -> (forall a st', Q1 a st' -> Q a st') -> okc Q st o.
Proof. destruct o; cbn; auto. intros [F H] K. auto. Qed.

(** Silent changes of the machine registers. *)
Definition same_core (st st' : mach) : Prop :=
  m_sys st' = m_sys st /\ m_prog st' = m_prog st /\ m_bits st' = m_bits st /\ m_guards st' = m_guards st /\ m_trace st' = m_trace st.

Lemma same_frame_mach st st' : good st -> same_core st st' -> frame st st'.
Proof.
  intros [I M] (A & B & C & D & E). assert (G' : good st').
  { unfold good, minv, held, db in *. rewrite A, C, D. auto. }
  constructor; auto.
  - exists []. rewrite E. split; [reflexivity|constructor].
  - unfold db. rewrite A. apply dframe_refl.
  - rewrite A. auto.
  - unfold held. rewrite C, D. auto.
Qed.

Lemma okc_pre {A} (Q : A -> mach -> Prop) st st1 o : good st -> same_core st st1 -> (good st1 -> okc Q st1 o) -> okc Q st o.
Proof.
  intros G S K. pose proof (same_frame_mach st st1 G S) as F. specialize (K (fr_good _ _ F)). destruct o; cbn in *; auto.
  - destruct K as [F2 HQ]. split; [eapply frame_trans; eauto|exact HQ].
  - destruct K as [T M]. split; [eapply text_trans; [apply F|exact T]|exact M].
Qed.

Definition post (c : cmd) (st st' : mach) : Prop :=
  match c with
  | CRestore new => m_cur st' = new
  | CIrq _ => m_cur st' = m_cur st
  | _ => True
  end.

Ltac score := unfold same_core; cbn; auto.

(** Changing the database. *)
Definition dkeep (d d' : evdb) : Prop :=
  ev_inv d' /\ dframe d d' /\
  (forall x, In x (views d) -> em_get (d_events d') (notice_event x) <> None -> In x (views d')).

Lemma set_sys_frame st s' : good st -> dkeep (db st) (s_db s') -> frame st (set_sys st s').
Proof.
  intros [I M] (I' & DF & K). constructor; auto.
  - split; [exact I'|exact M].
  - exists []. split; [reflexivity|constructor].
Qed.

Section Hoare.
Variable w : world.
Variable rec : cmd -> mach -> outcome unit.
Hypothesis REC : forall c st, good st -> okc (fun _ st' => post c st st') st (rec c st).

Lemma poll_ok st : good st -> okc (fun _ st' => m_cur st' = m_cur st) st (poll w rec st).
Proof.
  intros G. unfold poll. apply okc_pre with (st1 := bump_clock st); [exact G|score|]. intros G1.
  destruct (m_irq (bump_clock st)); [|cbn; split; [apply frame_refl; exact G1|reflexivity]].
  destruct (w_irq w (bump_clock st)) as [d|]; [|cbn; split; [apply frame_refl; exact G1|reflexivity]].
  eapply okc_weaken; [apply (REC (CIrq d)); exact G1|]. cbn. auto.
Qed.

Lemma raise_ok new st : good st ->
  okc (fun prev st' => prev = m_cur st /\ m_cur st' = new /\ m_cur st <= new /\ new <= TPL_HIGH_LEVEL) st (do_raise w rec new st).
Proof.
  intros G. unfold do_raise. destruct (N.ltb_spec TPL_HIGH_LEVEL new); [cbn; split; [apply text_refl|apply G]|].
  eapply okc_pre with (st1 := set_cur st (N.max (m_cur st) new)); [exact G|score|]. intros G1.
  eapply okc_bind; [exact G1|apply poll_ok; exact G1|]. cbn beta. intros [] st2 F2 G2 C2. cbn [set_cur m_cur] in C2.
  destruct (N.ltb_spec new (m_cur st)); [cbn; split; [apply text_refl|apply G2]|].
  cbn. split; [apply same_frame_mach; [exact G2|destruct (_ && _); score]|].
  split; [reflexivity|]. split; [|split; assumption].
  assert (m_cur st2 = new) by (rewrite C2; lia). destruct (_ && _); cbn; assumption.
Qed.

Lemma db_call_ok {A} (f : evsys -> A * evsys) st : good st ->
  (forall st1, frame st st1 -> good st1 -> dkeep (db st1) (s_db (snd (f (m_sys st1))))) ->
  okc (fun a st' => m_cur st' = m_cur st /\
         exists mid, frame st mid /\ good mid /\ a = fst (f (m_sys mid)) /\ frame (set_sys mid (snd (f (m_sys mid)))) st')
      st (db_call w rec f st).
Proof.
  intros G H. unfold db_call. eapply okc_bind; [exact G|apply raise_ok; exact G|]. cbn beta. intros prev st1 F1 G1 (-> & C1 & _).
  pose proof (H st1 F1 G1) as K. destruct (f (m_sys st1)) as [a s'] eqn:Ef. cbn [fst snd] in *.
  pose proof (set_sys_frame st1 s' G1 K) as F2. pose proof (REC (CRestore (m_cur st)) (set_sys st1 s') (fr_good _ _ F2)) as X.
  destruct (rec (CRestore (m_cur st)) (set_sys st1 s')) as [[] st2|st2|]; cbn in *; auto.
  - destruct X as [F3 C3]. split; [eapply frame_trans; eauto|]. split; [exact C3|]. exists st1. rewrite Ef. cbn. auto.
Qed.

Lemma nudge_ok st : good st -> okc (fun _ st' => m_cur st' = m_cur st) st (nudge w rec st).
Proof.
  intros G. unfold nudge. eapply okc_bind; [exact G|apply raise_ok; exact G|]. cbn beta. intros prev st1 F1 G1 (-> & C1 & _).
  eapply okc_weaken; [apply REC; exact G1|]. cbn. auto.
Qed.

(** Database operations that leave the frame. *)
Lemma dkeep_refl d : ev_inv d -> dkeep d d.
Proof. intros I. split; [exact I|]. split; [apply dframe_refl|auto]. Qed.

Lemma enqueue_In p x y : In y p \/ y = x -> In y (enqueue p x).
Proof.
  unfold enqueue. rewrite in_app_iff. cbn. rewrite !filter_In. intros [H| ->]; [|auto].
  destruct (N.leb_spec (notice_tpl x) (notice_tpl y)); [left; split; auto|right; right; split; [exact H|apply N.ltb_lt; assumption]].
Qed.
Lemma grows_In d d' x : grows d d' -> In x (views d) -> In x (views d').
Proof.
  intros (xs & ->). generalize (views d) as p. induction xs as [|y xs IH]; intros p H; cbn [fold_left]; [exact H|].
  apply IH. apply enqueue_In. auto.
Qed.

Lemma step_dkeep s o : ev_inv (s_db s) -> (forall tpl, o <> ODispatch tpl) -> dkeep (s_db s) (s_db (snd (ev_step s o))).
Proof.
  intros I ND. destruct (ev_step s o) as [out s'] eqn:E. cbn [snd]. destruct (step_inv s o out s' I E) as (I' & NX & _).
  split; [exact I'|]. split.
  - split; [exact NX|]. intros id e' Hid Ge. destruct (em_get (d_events (s_db s)) id) as [e|] eqn:G.
    + destruct (step_live s o out s' id e I E G) as [(_ & _ & D)|(e1 & G1 & EV)]; [congruence|].
      exists e. split; [reflexivity|]. destruct EV as (_ & T & _). congruence.
    + rewrite (step_dead s o out s' id I E Hid G) in Ge. discriminate.
  - intros x Hx _. pose proof (step_grows s o out s' I E ND) as GR; eapply grows_In; [exact GR|exact Hx].
Qed.

Lemma step_call_ok o st : good st -> (forall tpl, o <> ODispatch tpl) ->
  okc (fun _ st' => m_cur st' = m_cur st) st (db_call w rec (fun s => ev_step s o) st).
Proof.
  intros G ND. eapply okc_weaken; [apply (db_call_ok (fun s => ev_step s o) st); [exact G|]|cbn; tauto].
  intros st1 _ G1. apply step_dkeep; [apply G1|exact ND].
Qed.

Lemma dkeep_update d d' id f : ev_inv d' -> d_next d' = d_next d -> d_pending d' = d_pending d -> same_shape f ->
  (forall j, em_get (d_events d') j = if j =? id then option_map f (em_get (d_events d) id) else em_get (d_events d) j) -> dkeep d d'.
Proof.
  intros I' NX P Sf HG. split; [exact I'|]. split; [|unfold views; rewrite P; auto]. split; [lia|].
  intros j e' _ Ge. rewrite HG in Ge. destruct (N.eqb_spec j id) as [ ->|]; [|eauto].
  destruct (em_get (d_events d) id) as [e|]; [|discriminate]. cbn in Ge. injection Ge as <-. exists e. split; [reflexivity|]. apply (Sf e).
Qed.

Definition not_signal (d : evdb) (id : N) : Prop := forall e, em_get (d_events d) id = Some e -> is_notify_signal (e_type e) = false.
Lemma not_signal_later d d' id : dframe d d' -> id < d_next d -> not_signal d id -> not_signal d' id.
Proof. intros (_ & T) Hid NS e' Ge. destruct (T id e' Hid Ge) as (e & G & ->). exact (NS e G). Qed.

Lemma read_clear_dkeep d id : ev_inv d -> not_signal d id -> dkeep d (snd (read_and_clear_signaled d id)).
Proof.
  intros I NS. destruct (read_and_clear_signaled d id) as [r d'] eqn:E. destruct (read_clear_inv d id r d' I NS E) as (I' & (F1 & F2 & _) & P & _ & HG).
  cbn. eapply dkeep_update with (f := with_signaled false); eauto. apply shape_signaled.
Qed.
Lemma queue_dkeep d id : ev_inv d -> not_signal d id -> dkeep d (snd (queue_event_notify d id)).
Proof.
  intros I NS. destruct (queue_event_notify d id) as [r d'] eqn:E. destruct (queue_inv d id r d' I E NS) as (I' & (F1 & F2 & _) & EE & H & _).
  cbn. split; [exact I'|]. split; [split; [lia|]; rewrite EE; eauto|]. intros x Hx _.
  destruct (em_get (d_events d) id) as [e|].
  - destruct H as (_ & [ ->|[_ ->]]); [exact Hx|]. apply enqueue_In. auto.
  - destruct H as (_ & P). unfold views. rewrite P. exact Hx.
Qed.

Lemma lift_call_ok {A} (f : evdb -> A * evdb) st : good st ->
  (forall st1, frame st st1 -> good st1 -> dkeep (db st1) (snd (f (db st1)))) ->
  okc (fun a st' => m_cur st' = m_cur st /\
         exists mid, frame st mid /\ good mid /\ a = fst (f (db mid)) /\
           frame (set_sys mid (MkSys (snd (f (db mid))) (s_time (m_sys mid)))) st')
      st (db_call w rec (lift_db f) st).
Proof.
  intros G H. eapply okc_weaken.
  - apply db_call_ok; [exact G|]. intros st1 F1 G1. specialize (H st1 F1 G1). unfold lift_db, db in *. destruct (f (s_db (m_sys st1))). exact H.
  - cbn beta. intros a st' (C & mid & F1 & G1 & E & F2). split; [exact C|]. exists mid. split; [exact F1|]. split; [exact G1|].
    unfold lift_db, db in *. destruct (f (s_db (m_sys mid))). auto.
Qed.

Lemma live_next st id e : good st -> em_get (d_events (db st)) id = Some e -> id < d_next (db st).
Proof. intros [I _] G. apply get_In in G. destruct G as [Hi <-]. pose proof (iv_ids _ I) as Q. rewrite Forall_forall in Q. apply (Q e Hi). Qed.

Lemma check_ok id st : good st -> okc (fun _ st' => m_cur st' = m_cur st) st (do_check w rec id st).
Proof.
  intros G. unfold do_check.
  eapply okc_bind; [exact G| |].
  { apply (db_call_ok (fun s => (get_event_type (s_db s) id, s)) st); [exact G|].
    intros st1 F1 G1. cbn. apply dkeep_refl; apply G1. }
  cbn beta. intros ty st1 F1 G1 (C1 & mid & FM & GM & HT & FM1). cbn [fst snd] in HT, FM1.
  destruct ty as [ty|er|]; [|cbn; split; [apply frame_refl; exact G1|exact C1]|cbn; split; [apply text_refl|apply G1]].
  destruct (is_notify_signal ty) eqn:SG; [cbn; split; [apply frame_refl; exact G1|exact C1]|].
  assert (NS : not_signal (db mid) id /\ id < d_next (db mid)).
  { unfold get_event_type in HT. fold (db mid) in HT. destruct (em_get (d_events (db mid)) id) as [e|] eqn:Ge; [|discriminate]. injection HT as ->.
    split; [intros e' Ge'; congruence|eapply live_next; eauto]. }
  assert (NS1 : not_signal (db st1) id /\ id < d_next (db st1)).
  { destruct NS as [NS L]. pose proof (fr_db _ _ FM1) as DF. split; [eapply not_signal_later; [exact DF|exact L|exact NS]|].
    destruct DF as [NX _]. cbn in NX. unfold db in *. cbn in NX. lia. }
  clear NS. rename NS1 into NS.
  assert (Later : forall st2, frame st1 st2 -> not_signal (db st2) id /\ id < d_next (db st2)).
  { intros st2 F. destruct NS as [NS L]. pose proof (fr_db _ _ F) as DF. split; [eapply not_signal_later; eauto|]. destruct DF. lia. }
  eapply okc_bind; [exact G1| |].
  { apply (lift_call_ok (fun d => read_and_clear_signaled d id)); [exact G1|]. intros s2 F2 G2. apply read_clear_dkeep; [apply G2|]. apply Later. exact F2. }
  cbn beta. intros r st2 F2 G2 (C2 & _). rewrite C1 in C2.
  destruct r as [[|]|er|]; [cbn; split; [apply frame_refl; exact G2|exact C2]| |cbn; split; [apply frame_refl; exact G2|exact C2]|cbn; split; [apply text_refl|apply G2]].
  eapply okc_bind; [exact G2| |].
  { apply (lift_call_ok (fun d => queue_event_notify d id)); [exact G2|]. intros s3 F3 G3. apply queue_dkeep; [apply G3|]. apply Later. eapply frame_trans; eauto. }
  cbn beta. intros q st3 F3 G3 (C3 & _). rewrite C2 in C3.
  destruct q as [u|er|]; [|cbn; split; [apply frame_refl; exact G3|exact C3]|cbn; split; [apply text_refl|apply G3]].
  eapply okc_bind; [exact G3|apply nudge_ok; exact G3|]. cbn beta. intros [] st4 F4 G4 C4. rewrite C3 in C4.
  assert (F14 : frame st1 st4) by (eapply frame_trans; [exact G1|exact F2|eapply frame_trans; eauto]).
  eapply okc_bind; [exact G4| |].
  { apply (lift_call_ok (fun d => read_and_clear_signaled d id)); [exact G4|]. intros s5 F5 G5. apply read_clear_dkeep; [apply G5|]. apply Later. eapply frame_trans; eauto. }
  cbn beta. intros r5 st5 F5 G5 (C5 & _). rewrite C4 in C5.
  destruct r5 as [[|]|er|]; cbn; try (split; [apply frame_refl; exact G5|exact C5]). split; [apply text_refl|apply G5].
Qed.

Lemma panic_if_ok st o (Q : ev_out -> mach -> Prop) : good st -> okc Q st o -> okc Q st (panic_if true o).
Proof.
  intros G H. unfold panic_if. eapply okc_bind; [exact G|exact H|]. intros r st1 F1 G1 HQ.
  destruct r; cbn; try (split; [apply frame_refl; exact G1|exact HQ]). split; [apply text_refl|apply G1].
Qed.

Lemma svc_ok o st : good st -> okc (fun _ st' => m_cur st' = m_cur st) st (do_svc w rec o st).
Proof.
  intros G. unfold do_svc. apply panic_if_ok; [exact G|]. destruct o; try (apply step_call_ok; [exact G|discriminate]).
  - eapply okc_bind; [exact G|apply step_call_ok; [exact G|discriminate]|]. cbn beta. intros r st1 F1 G1 C1.
    eapply okc_bind; [exact G1|apply nudge_ok; exact G1|]. cbn beta. intros [] st2 F2 G2 C2. cbn. split; [apply frame_refl; exact G2|congruence].
  - apply check_ok. exact G.
Qed.

(** ** Mutexes *)
Lemma bit_frame st m : good st -> ~ held st m -> m_bits st m = false -> frame st (set_bit st m true) /\ m_bits (set_bit st m true) m = true /\ ~ held (set_bit st m true) m.
Proof.
  intros [I [ND B]] NH BF. split; [|cbn; rewrite N.eqb_refl; auto]. constructor; auto.
  - split; [exact I|]. split; [exact ND|]. intros i Hi. cbn. destruct (N.eqb_spec i m); [reflexivity|]. apply B. exact Hi.
  - apply text_same; reflexivity.
  - apply dframe_refl.
  - intros i Hb Hh. cbn. destruct (N.eqb_spec i m); auto.
Qed.

Lemma guard_frame st m p : good st -> m_bits st m = true -> ~ held st m ->
  good (set_guards st ((m, p) :: m_guards st)) /\
  (forall i, m_bits st i = true -> ~ held st i -> i <> m -> ~ held (set_guards st ((m, p) :: m_guards st)) i).
Proof.
  intros [I [ND B]] BT NH. split.
  - split; [exact I|]. split; [cbn; constructor; [exact NH|exact ND]|]. intros i [<-|Hi]; [exact BT|]. apply B. exact Hi.
  - intros i Hb Hh Ni [Q|Q]; cbn in Q; [congruence|auto].
Qed.

Lemma try_lock_ok m st : good st ->
  okc (fun (got : bool) st' => if got then m_cur st' = w_level w m /\ exists g, m_guards st' = (m, m_cur st) :: g else m_cur st' = m_cur st) st (do_try_lock w rec m st).
Proof.
  intros G. unfold do_try_lock. destruct (w_sdk w m).
  - destruct (m_bits st m) eqn:B; [cbn; split; [apply frame_refl; exact G|reflexivity]|].
    assert (NH : ~ held st m) by (intros H; destruct G as [_ [_ Q]]; rewrite (Q m H) in B; discriminate).
    destruct (bit_frame st m G NH B) as (F1 & B1 & H1). set (st1 := set_bit st m true) in *. pose proof (fr_good _ _ F1) as G1.
    pose proof (poll_ok st1 G1) as P. destruct (poll w rec st1) as [[] st2|st2|]; cbn in P |- *; try exact Logic.I.
    2:{ destruct P as [T M]. split; [eapply text_trans; [apply F1|exact T]|exact M]. }
    destruct P as [F2 C2]. destruct (fr_res _ _ F2 m B1 H1) as [B2 H2]. pose proof (fr_good _ _ F2) as G2.
    pose proof (raise_ok (w_level w m) st2 G2) as R. destruct (do_raise w rec (w_level w m) st2) as [prev st3|st3|]; cbn in R |- *; try exact Logic.I.
    2:{ destruct R as [T M]. split; [eapply text_trans; [apply F1|eapply text_trans; [apply F2|exact T]]|exact M]. }
    destruct R as [F3 (-> & C3 & _)]. destruct (fr_res _ _ F3 m B2 H2) as [B3 H3]. pose proof (fr_good _ _ F3) as G3.
    destruct (guard_frame st3 m (m_cur st2) G3 B3 H3) as [G4 R4].
    assert (F13 : frame st st3) by (eapply frame_trans; [exact G|exact F1|eapply frame_trans; eauto]).
    split; [|split; [exact C3|]; cbn; rewrite C2; eauto].
    constructor; try apply F13; [exact G4|].
    intros i Hb Hh. destruct (fr_res _ _ F13 i Hb Hh) as [Hb3 Hh3]. split; [exact Hb3|]. apply R4; auto. intros ->. congruence.
  - eapply okc_bind; [exact G|apply raise_ok; exact G|]. cbn beta. intros prev st1 F1 G1 (-> & C1 & _).
    eapply okc_bind; [exact G1|apply poll_ok; exact G1|]. cbn beta. intros [] st2 F2 G2 C2.
    destruct (m_bits st2 m) eqn:B.
    + eapply okc_bind; [exact G2|apply REC; exact G2|]. cbn beta. intros [] st3 F3 G3 C3. cbn in *. split; [apply frame_refl; exact G3|exact C3].
    + assert (NH : ~ held st2 m) by (intros H; destruct G2 as [_ [_ Q]]; rewrite (Q m H) in B; discriminate).
      destruct (bit_frame st2 m G2 NH B) as (F3 & B3 & H3). pose proof (fr_good _ _ F3) as G3.
      destruct (guard_frame _ m (m_cur st) G3 B3 H3) as [G4 R4]. cbn.
      split; [|split; [congruence|eauto]]. constructor; try apply F3; [exact G4|].
      intros i Hb Hh. destruct (fr_res _ _ F3 i Hb Hh) as [Hb3 Hh3]. split; [exact Hb3|]. apply R4; auto. intros ->. congruence.
Qed.

Lemma take_guard_spec m g p g' : take_guard m g = Some (p, g') ->
  exists a b, g = a ++ (m, p) :: b /\ g' = a ++ b /\ ~ In m (map fst a).
Proof.
  revert p g'. induction g as [|[i q] t IH]; intros p g' H; cbn in H; [discriminate|]. destruct (N.eqb_spec i m) as [ ->|Ni].
  - injection H as <- <-. exists [], t. cbn. auto.
  - destruct (take_guard m t) as [[q' t']|]; [|discriminate]. injection H as <- <-. destruct (IH q' t' eq_refl) as (a & b & -> & -> & Na).
    exists ((i, q) :: a), b. cbn. intuition.
Qed.
Lemma take_guard_none m g : take_guard m g = None -> ~ In m (map fst g).
Proof.
  induction g as [|[i q] t IH]; cbn; [auto|]. destruct (N.eqb_spec i m) as [ ->|Ni]; [discriminate|].
  destruct (take_guard m t) as [[? ?]|]; [discriminate|]. intros _ [Q|Q]; [auto|apply IH; auto].
Qed.

Lemma drop_ok m st : good st ->
  okc (fun _ st' => match take_guard m (m_guards st) with Some (prev, _) => m_cur st' = prev | None => st' = st end) st (do_drop w rec m st).
Proof.
  intros G. unfold do_drop. destruct (take_guard m (m_guards st)) as [[prev g]|] eqn:T; [|cbn; split; [apply frame_refl; exact G|reflexivity]].
  destruct (take_guard_spec _ _ _ _ T) as (a & b & EG & -> & Na). destruct G as [I [ND B]].
  assert (ND1 : NoDup (map fst (a ++ b)) /\ ~ In m (map fst (a ++ b))).
  { rewrite EG, map_app in ND. cbn in ND. rewrite map_app. split; [eapply NoDup_remove_1; exact ND|eapply NoDup_remove_2; exact ND]. }
  destruct ND1 as [ND1 NI].
  assert (Sub : forall i, In i (map fst (a ++ b)) -> held st i).
  { intros i Hi. unfold held. rewrite EG. rewrite map_app in *. cbn. apply in_app_iff in Hi. apply in_app_iff. cbn. tauto. }
  assert (BM : m_bits st m = true) by (apply B; unfold held; rewrite EG, map_app; apply in_app_iff; cbn; auto).
  set (st1 := set_guards st (a ++ b)).
  assert (F1 : frame st st1).
  { constructor.
    - split; [exact I|]. split; [exact ND1|]. intros i Hi. apply B. apply Sub. exact Hi.
    - reflexivity.
    - apply text_same; reflexivity.
    - apply dframe_refl.
    - auto.
    - intros i Hb Hh. split; [exact Hb|]. intros Q. apply Hh. apply Sub. exact Q. }
  pose proof (fr_good _ _ F1) as G1. assert (G : good st) by (split; [exact I|split; [exact ND|exact B]]).
  assert (H1 : ~ held st1 m) by exact NI.
  assert (Clear : forall s, good s -> ~ held s m -> good (set_bit s m false)).
  { intros s [Is [NDs Bs]] Hs. split; [exact Is|]. split; [exact NDs|]. intros i Hi. cbn. destruct (N.eqb_spec i m); [subst; elim Hs; exact Hi|apply Bs; exact Hi]. }
  destruct (w_sdk w m).
  - pose proof (REC (CRestore prev) st1 G1) as R. destruct (rec (CRestore prev) st1) as [[] st2|st2|]; cbn in R |- *; try exact Logic.I.
    2:{ destruct R as [Tx M]. split; [eapply text_trans; [apply F1|exact Tx]|exact M]. }
    destruct R as [F2 C2]. destruct (fr_res _ _ F2 m BM H1) as [B2 H2]. assert (F02 : frame st st2) by (eapply frame_trans; eauto).
    split; [|exact C2]. constructor; try apply F02; [apply Clear; [apply F02|exact H2]|].
    intros i Hb Hh. destruct (fr_res _ _ F02 i Hb Hh) as [Hb2 Hh2]. split; [|exact Hh2]. cbn. destruct (N.eqb_spec i m) as [ ->|]; [|exact Hb2].
    exfalso. apply Hh. unfold held. rewrite EG, map_app. apply in_app_iff. cbn. auto.
  - pose proof (Clear st1 G1 H1) as G1c.
    assert (F1c : frame st (set_bit st1 m false)).
    { constructor; try apply F1; [exact G1c|]. intros i Hb Hh. destruct (fr_res _ _ F1 i Hb Hh) as [Hb1 Hh1]. split; [|exact Hh1].
      cbn. destruct (N.eqb_spec i m) as [ ->|]; [|exact Hb1]. exfalso. apply Hh. unfold held. rewrite EG, map_app. apply in_app_iff. cbn. auto. }
    pose proof (poll_ok _ G1c) as P. destruct (poll w rec (set_bit st1 m false)) as [[] st2|st2|]; cbn in P |- *; try exact Logic.I.
    2:{ destruct P as [Tx M]. split; [eapply text_trans; [apply F1c|exact Tx]|exact M]. }
    destruct P as [F2 C2]. pose proof (fr_good _ _ F2) as G2. pose proof (REC (CRestore prev) st2 G2) as R.
    destruct (rec (CRestore prev) st2) as [[] st3|st3|]; cbn in R |- *; try exact Logic.I.
    + destruct R as [F3 C3]. split; [eapply frame_trans; [exact G|exact F1c|eapply frame_trans; eauto]|exact C3].
    + destruct R as [Tx M]. split; [eapply text_trans; [apply F1c|eapply text_trans; [apply F2|exact Tx]]|exact M].
Qed.

(** ** The core routines *)
Lemma restore_ok new st : good st -> okc (fun _ st' => m_cur st' = new) st (do_restore w rec new st).
Proof.
  intros G. unfold do_restore. eapply okc_pre with (st1 := set_cur st (N.min (m_cur st) new)); [exact G|score|]. intros G1.
  eapply okc_bind; [exact G1|apply poll_ok; exact G1|]. cbn beta. intros [] st2 F2 G2 _.
  destruct (m_cur st <? new); [cbn; split; [apply text_refl|apply G2]|].
  eapply okc_bind with (Q1 := fun _ _ => True); [exact G2| |].
  { destruct (new <? m_cur st); [|cbn; split; [apply frame_refl; exact G2|exact I]]. apply (REC (CLoop new)). exact G2. }
  intros [] st3 F3 G3 _. eapply okc_pre with (st1 := if new <? TPL_HIGH_LEVEL then set_irq st3 true else st3); [exact G3|destruct (_ <? _); score|].
  intros G4. eapply okc_bind; [exact G4|apply poll_ok; exact G4|]. cbn beta. intros [] st5 F5 G5 _. cbn. split; [|reflexivity].
  apply same_frame_mach; [exact G5|score].
Qed.

Lemma irq_ok d st : good st -> okc (fun _ st' => m_cur st' = m_cur st) st (do_irq w rec d st).
Proof.
  intros G. unfold do_irq. eapply okc_pre with (st1 := set_irq st false); [exact G|score|]. intros G1.
  eapply okc_bind; [exact G1|apply raise_ok; exact G1|]. cbn beta. intros old st2 F2 G2 (-> & _). cbn [set_irq m_cur].
  eapply okc_bind; [exact G2|apply panic_if_ok; [exact G2|]; apply step_call_ok; [exact G2|discriminate]|]. cbn beta. intros r st3 F3 G3 _.
  eapply okc_bind; [exact G3|apply REC; exact G3|]. cbn beta. intros [] st4 F4 G4 C4. cbn in *. split; [|exact C4].
  apply same_frame_mach; [exact G4|score].
Qed.

End Hoare.
End Inflight.

(** ** The dispatch loop, for any number of notifications in flight *)
Definition bump (ex : N -> nat) (id : N) (j : N) : nat := if j =? id then S (ex j) else ex j.

Lemma consume_some ex d tpl n d' e : @evi ex d -> consume_next d tpl = (Some n, d') -> em_get (d_events d) (n_event n) = Some e ->
  @evi (if is_notify_signal (e_type e) then bump ex (n_event n) else ex) d'.
Proof.
  intros I E Ge. destruct (consume_spec d tpl _ d' I E) as (EE & (_ & NX & _) & dead & FD & EP & LT & _).
  assert (TG : d_tags d' = d_tags d).
  { clear -E. unfold consume_next in E. destruct (drop_closed _ _); [|destruct (_ <=? _)]; injection E as _ <-; reflexivity. }
  pose proof (get_In _ _ _ Ge) as [Hi Ei].
  assert (Sub : forall m, In m (d_pending d') -> In m (d_pending d)) by (intros m Hm; rewrite EP; apply in_or_app; cbn; auto).
  assert (Cn : forall x, In x (d_events d) -> cnt (d_pending d) (e_id x) = ((if (n_event n =? e_id x)%N then 1 else 0) + cnt (d_pending d') (e_id x))%nat).
  { intros x Hx. rewrite EP, cnt_app, cnt_cons, (cnt_dead (d_events d) dead x (iv_sorted d I) FD Hx). reflexivity. }
  constructor; rewrite ?EE, ?NX, ?TG.
  - apply (iv_sorted d I).
  - apply (iv_ids d I).
  - apply (iv_next d I).
  - apply (sorted_suffix nb (dead ++ [n])). rewrite <- app_assoc. cbn. rewrite <- EP. apply (iv_psorted d I).
  - apply Forall_forall. intros m Hm. pose proof (iv_tags d I) as Q. rewrite Forall_forall in Q. auto.
  - apply Forall_forall. intros m Hm. pose proof (iv_pids d I) as Q. rewrite Forall_forall in Q. auto.
  - intros m x Hm. apply (iv_pend d I). auto.
  - intros x Hx Sx. pose proof (iv_count d I x Hx Sx) as C. rewrite (Cn x Hx) in C.
    destruct (N.eqb_spec (n_event n) (e_id x)) as [En|Nn].
    + assert (x = e) by (pose proof (In_get _ _ (iv_sorted d I) Hx) as Gx; rewrite <- En, Ge in Gx; congruence). subst x. rewrite Sx. unfold bump.
      rewrite En, N.eqb_refl. lia.
    + destruct (is_notify_signal (e_type e)); [|exact C]. unfold bump. destruct (N.eqb_spec (e_id x) (n_event n)); [congruence|exact C].
  - intros id Hid. pose proof (iv_ex d I id Hid) as X. destruct (is_notify_signal (e_type e)); [|exact X]. unfold bump.
    destruct (N.eqb_spec id (n_event n)) as [->|]; [|exact X]. pose proof (iv_ids d I) as Q. rewrite Forall_forall in Q. apply Q in Hi. lia.
Qed.

Lemma clear_inflight ex d id r d' : @evi (bump ex id) d -> id < d_next d -> clear_signal d id = (r, d') -> @evi ex d'.
Proof.
  intros I Hid E. assert (X : forall j, d_next d <= j -> ex j = 0%nat).
  { intros j Hj. pose proof (iv_ex d I j Hj) as X. unfold bump in X. destruct (_ =? _); [discriminate|exact X]. }
  assert (NoE : em_get (d_events d) id = None -> @evi ex d).
  { intros Gn. constructor; try apply I; [|exact X]. intros x Hx Sx. pose proof (iv_count d I x Hx Sx) as C. unfold bump in C.
    destruct (N.eqb_spec (e_id x) id) as [Ex|]; [|exact C]. exfalso. apply (get_None _ _ Gn x Hx Ex). }
  unfold clear_signal in E. destruct (em_get (d_events d) id) as [e|] eqn:G; injection E as _ <-; [|auto].
  constructor; cbn [set_events d_events d_next d_pending d_tags]; try apply I; try exact X.
  - apply sorted_update; [reflexivity|apply (iv_sorted d I)].
  - apply Forall_forall. intros x Hx. pose proof (iv_ids d I) as Q. rewrite Forall_forall in Q.
    apply In_update in Hx. destruct Hx as [[Hx _]|(e0 & He & _ & ->)]; [auto|]. cbn. auto.
  - intros n x Hn Gx. rewrite get_update in Gx by reflexivity. destruct (N.eqb_spec (n_event n) id) as [En|]; [|apply (iv_pend d I); auto].
    rewrite G in Gx. cbn in Gx. injection Gx as <-. rewrite shape_notice by apply shape_signaled. apply (iv_pend d I); congruence.
  - intros x Hx Sx. apply In_update in Hx. destruct Hx as [[Hx Nx]|(e0 & He & Ei & ->)].
    + pose proof (iv_count d I x Hx Sx) as C. unfold bump in C. destruct (N.eqb_spec (e_id x) id); [congruence|exact C].
    + cbn in Sx |- *. pose proof (iv_count d I e0 He Sx) as C. unfold bump in C. rewrite Ei, N.eqb_refl in *. destruct (e_signaled e0); lia.
Qed.

Lemma notice_eq_dec (x y : notice) : {x = y} + {x <> y}.
Proof. destruct x, y. repeat decide equality. Qed.

(** The frame, except for the in-flight count, the flag and one notification. *)
Record framex (x0 : notice) (st st' : mach) : Prop := {
  fx_text : text st st';
  fx_db : dframe (db st) (db st');
  fx_kept : forall x, x <> x0 -> In x (pending (m_sys st)) -> em_get (d_events (db st')) (notice_event x) <> None ->
     In x (pending (m_sys st')) \/ traced st st' x;
  fx_res : forall m, m_bits st m = true -> ~ held st m -> m_bits st' m = true /\ ~ held st' m
}.

Definition pids (st : mach) : Prop := forall x, In x (pending (m_sys st)) -> notice_event x < d_next (db st).

Lemma framex_step ex x0 a b c : pids a -> framex x0 a b -> @frame ex b c -> framex x0 a c.
Proof.
  intros PA F1 F2. constructor.
  - eapply text_trans; [apply (fx_text _ _ _ F1)|apply (fr_text _ _ F2)].
  - eapply dframe_trans; [apply (fx_db _ _ _ F1)|apply (fr_db _ _ F2)].
  - intros x Nx Hx Lx. destruct (em_get (d_events (db c)) (notice_event x)) as [e|] eqn:E; [|congruence].
    pose proof (PA x Hx) as Hid. destruct (fr_db _ _ F2) as (NX & TY). destruct (fx_db _ _ _ F1) as (NX1 & _).
    destruct (TY (notice_event x) e ltac:(lia) E) as (e1 & G1 & _).
    destruct (fx_kept _ _ _ F1 x Nx Hx) as [H|H]; [congruence| |].
    + destruct (fr_kept _ _ F2 x H) as [H2|H2]; [congruence|auto|]. right. eapply traced_right; [apply (fx_text _ _ _ F1)|exact H2].
    + right. eapply traced_left; [apply (fr_text _ _ F2)|exact H].
  - intros m Hb Hh. destruct (fx_res _ _ _ F1 m Hb Hh) as [Hb1 Hh1]. apply (fr_res _ _ F2 m Hb1 Hh1).
Qed.

(** Register changes, including the flag. *)
Lemma framex_regs x0 a b c : framex x0 a b ->
  m_sys c = m_sys b -> m_bits c = m_bits b -> m_guards c = m_guards b -> m_trace c = m_trace b -> framex x0 a c.
Proof.
  intros F A B C D. destruct F as [T DF K R]. constructor.
  - destruct T as (tr & E & H). exists tr. rewrite D. auto.
  - unfold db. rewrite A. exact DF.
  - intros x Nx Hx Lx. unfold db in Lx. rewrite A in *. destruct (K x Nx Hx Lx) as [H|H]; [auto|]. right.
    destruct H as (n & t & l & al & gs & Q & more & E' & Hin). exists n, t, l, al, gs. split; [exact Q|]. exists more. rewrite D. auto.
  - intros m Hb Hh. unfold held. rewrite B, C. apply R; assumption.
Qed.

Lemma good_regs ex b c : @good ex b -> m_sys c = m_sys b -> m_bits c = m_bits b -> m_guards c = m_guards b -> @good ex c.
Proof. intros [I M] A B C. unfold good, minv, held, db in *. rewrite A, B, C. auto. Qed.

Lemma okx_bind {A B} ex ex' x0 (Q1 : A -> mach -> Prop) (Q : B -> mach -> Prop) st stk o (f : A -> mach -> outcome B) :
  pids st -> framex x0 st stk -> @okc ex' _ Q1 stk o ->
  (forall a s, framex x0 st s -> @good ex' s -> m_prog s = m_prog stk -> @frame ex' stk s -> Q1 a s -> @okc ex _ Q st (f a s)) ->
  @okc ex _ Q st (obind o f).
Proof.
  intros PA F H K. destruct o as [a s|s|]; cbn in *; auto.
  - destruct H as [F1 HQ]. apply K; auto; [apply (framex_step ex' x0 st stk s); assumption|apply (fr_good _ _ F1)|apply (fr_prog _ _ F1)].
  - destruct H as [T M]. split; [eapply text_trans; [apply (fx_text _ _ _ F)|exact T]|exact M].
Qed.

Section Loop.
Variable w : world.
Variable rec : cmd -> mach -> outcome unit.
Hypothesis REC : forall ex c st, @good ex st -> @okc ex _ (fun _ st' => post c st st') st (rec c st).

Lemma good_pids ex st : @good ex st -> pids st.
Proof. intros G x Hx. eapply pend_next; eauto. Qed.

Lemma consume_none_keep ex d tpl d' : @evi ex d -> consume_next d tpl = (None, d') -> @dkeep ex d d'.
Proof.
  intros I E. destruct (consume_spec d tpl _ d' I E) as (EE & (_ & NX & _) & dead & FD & EP & LE & I'). split; [exact I'|].
  split; [split; [lia|rewrite EE; eauto]|]. intros x Hx Lx. unfold views in *. rewrite EP, map_app in Hx. apply in_app_or in Hx.
  destruct Hx as [Hx|Hx]; [|exact Hx]. exfalso. apply in_map_iff in Hx. destruct Hx as (n & <- & Hn). rewrite Forall_forall in FD.
  apply Lx. rewrite EE. apply (FD n Hn).
Qed.

Lemma consume_some_framex ex st tpl n d' : @good ex st -> consume_next (db st) tpl = (Some n, d') ->
  framex (notice_of n) st (set_sys st (MkSys d' (s_time (m_sys st)))).
Proof.
  intros [I M] E. destruct (consume_spec (db st) tpl _ d' I E) as (EE & (_ & NX & _) & dead & FD & EP & LE & _). constructor.
  - apply text_same. reflexivity.
  - unfold db; cbn. fold (db st). split; [lia|rewrite EE; eauto].
  - intros x Nx Hx Lx. left. unfold pending, db in *. cbn in *. rewrite EP, map_app in Hx. apply in_app_or in Hx.
    destruct Hx as [Hx|[Hx|Hx]]; [|congruence|exact Hx]. exfalso. apply in_map_iff in Hx. destruct Hx as (m & <- & Hm). rewrite Forall_forall in FD.
    apply Lx. rewrite EE. apply (FD m Hm).
  - auto.
Qed.

Lemma loop_ok ex new st : @good ex st -> @okc ex _ (fun _ _ => True) st (do_loop w rec new st).
Proof.
  intros G. unfold do_loop. destruct (m_prog st) eqn:PR; [cbn; split; [apply frame_refl; exact G|exact Logic.I]|].
  pose proof (good_pids _ _ G) as PA.
  set (st0 := set_prog st true). assert (G0 : @good ex st0) by (eapply good_regs; eauto).
  unfold db_call. pose proof (raise_ok w rec (REC ex) TPL_HIGH_LEVEL st0 G0) as R.
  destruct (do_raise w rec TPL_HIGH_LEVEL st0) as [prev st1|st1|]; cbn [obind]; [|exact R|exact Logic.I].
  destruct R as [F1 (-> & C1 & _)]. pose proof (fr_good _ _ F1) as G1. cbn [m_cur st0 set_prog].
  unfold lift_db at 1. fold (db st1). destruct (consume_next (db st1) new) as [r d'] eqn:EC.
  set (st1' := set_sys st1 (MkSys d' (s_time (m_sys st1)))).
  destruct r as [n|].
  2:{ (* nothing to run *)
    pose proof (set_sys_frame st1 (MkSys d' (s_time (m_sys st1))) G1 (consume_none_keep _ _ _ _ (proj1 G1) EC)) as F2. fold st1' in F2.
    assert (F02 : @frame ex st0 st1') by (eapply frame_trans; eauto).
    pose proof (REC ex (CRestore (m_cur st0)) st1' (fr_good _ _ F2)) as R. change (m_cur st0) with (m_cur st) in R.
    destruct (rec (CRestore (m_cur st)) st1') as [[] st2|st2|]; cbn [obind]; [|destruct R as [T M]; split; [eapply text_trans; [apply (fr_text _ _ F02)|exact T]|exact M]|exact Logic.I].
    destruct R as [F3 _]. pose proof (fr_good _ _ F3) as G3. pose proof (poll_ok w rec (REC ex) st2 G3) as P.
    assert (F03 : @frame ex st0 st2) by (eapply frame_trans; eauto).
    destruct (poll w rec st2) as [[] st3|st3|]; cbn [obind]; [|destruct P as [T M]; split; [eapply text_trans; [apply (fr_text _ _ F03)|exact T]|exact M]|exact Logic.I].
    destruct P as [F4 _]. assert (F04 : @frame ex st0 st3) by (eapply frame_trans; eauto).
    assert (G4 : @good ex (set_prog st3 false)) by (eapply good_regs; [apply (fr_good _ _ F4)|reflexivity..]).
    assert (F : @frame ex st (set_prog st3 false)).
    { destruct F04 as [A B C D E K]. constructor; auto. }
    pose proof (poll_ok w rec (REC ex) _ G4) as P.
    destruct (poll w rec (set_prog st3 false)) as [[] st4|st4|]; cbn [obind okc]; [|destruct P as [T M]; split; [eapply text_trans; [apply (fr_text _ _ F)|exact T]|exact M]|exact Logic.I].
    destruct P as [F5 _]. split; [eapply frame_trans; eauto|exact Logic.I]. }
  (* a notification *)
  destruct (consume_spec (db st1) new _ d' (proj1 G1) EC) as (EE & (_ & NX & _) & dead & FD & EP & LT & e & Ge).
  set (ex1 := if is_notify_signal (e_type e) then bump ex (n_event n) else ex).
  assert (G1' : @good ex1 st1') by (split; [eapply consume_some; eauto; apply G1|apply G1]).
  assert (PX : framex (notice_of n) st st1').
  { pose proof (consume_some_framex ex st1 new n d' G1 EC) as FX. fold st1' in FX.
    destruct FX as [A B C D]. constructor.
    - eapply text_trans; [|exact A]. apply (fr_text _ _ F1).
    - eapply dframe_trans; [|exact B]. apply (fr_db _ _ F1).
    - intros x Nx Hx Lx.
      assert (L1 : em_get (d_events (db st1)) (notice_event x) <> None) by (unfold st1', db in Lx; cbn in Lx; rewrite EE in Lx; exact Lx).
      destruct (fr_kept _ _ F1 x Hx L1) as [H|H]; [|right; eapply traced_left; [exact A|exact H]].
      destruct (C x Nx H Lx) as [Q|Q]; [auto|]. right. apply (traced_right st st1); [apply (fr_text _ _ F1)|exact Q].
    - intros m Hb Hh. destruct (fr_res _ _ F1 m Hb Hh) as [Hb1 Hh1]. apply D; assumption. }
  assert (EV : em_get (d_events (db st1')) (n_event n) = Some e) by (unfold st1', db; cbn; rewrite EE; exact Ge).
  assert (EN : n_event n < d_next (db st1')) by (eapply live_next; eauto).
  (* facts about the event that survive *)
  assert (Live : forall s, dframe (db st1') (db s) -> n_event n < d_next (db s) /\ forall e', em_get (d_events (db s)) (n_event n) = Some e' -> e_type e' = e_type e).
  { intros s [A B]. split; [lia|]. intros e' Ge'. destruct (B _ _ EN Ge') as (e0 & G0' & T0). congruence. }
  cbn [obind].
  assert (S1 : @okc ex1 _ (fun r s => r = Some n) st1' (obind (rec (CRestore (m_cur st)) st1') (fun _ s => ODone (Some n) s))).
  { eapply okc_bind; [exact G1'|apply REC; exact G1'|]. cbn beta. intros [] s F _ _. cbn. split; [|reflexivity]. apply frame_refl. apply (fr_good _ _ F). }
  eapply (okx_bind ex ex1); [exact PA|exact PX|exact S1|]. clear S1. intros r s2 X2 G2 _ F12 ->.
  pose proof (fr_db _ _ F12) as D2.
  eapply (okx_bind ex ex1); [exact PA|exact X2|apply poll_ok; [apply REC|exact G2]|]. cbn beta. intros [] s3 X3 G3 _ F23 _.
  assert (D3 : dframe (db st1') (db s3)) by (eapply dframe_trans; [exact D2|apply (fr_db _ _ F23)]).
  set (t3 := set_prog s3 false). assert (H3 : @good ex1 t3) by (eapply good_regs; eauto).
  assert (Y3 : framex (notice_of n) st t3) by (eapply framex_regs; eauto).
  eapply (okx_bind ex ex1); [exact PA|exact Y3|apply poll_ok; [apply REC|exact H3]|]. cbn beta. intros [] s4 X4 G4 P4 F34 _.
  assert (D4 : dframe (db st1') (db s4)) by (eapply dframe_trans; [exact D3|apply (fr_db _ _ F34)]).
  set (t4 := set_irq s4 (n_tpl n <? TPL_HIGH_LEVEL)). assert (H4 : @good ex1 t4) by (eapply good_regs; eauto).
  assert (Y4 : framex (notice_of n) st t4) by (eapply framex_regs; eauto).
  eapply (okx_bind ex ex1); [exact PA|exact Y4|apply poll_ok; [apply REC|exact H4]|]. cbn beta. intros [] s5 X5 G5 P5 F45 _.
  assert (D5 : dframe (db st1') (db s5)) by (eapply dframe_trans; [exact D4|apply (fr_db _ _ F45)]).
  set (t5 := set_cur s5 (n_tpl n)). assert (H5 : @good ex1 t5) by (eapply good_regs; eauto).
  assert (Y5 : framex (notice_of n) st t5) by (eapply framex_regs; eauto).
  eapply (okx_bind ex ex1); [exact PA|exact Y5|apply poll_ok; [apply REC|exact H5]|]. cbn beta. intros [] s6 X6 G6 P6 F56 C6.
  assert (D6 : dframe (db st1') (db s6)) by (eapply dframe_trans; [exact D5|apply (fr_db _ _ F56)]).
  cbn [t5 set_cur m_cur] in C6.
  eapply (okx_bind ex ex1); [exact PA|exact X6| |].
  { apply (db_call_ok w rec (REC ex1) (fun s => (get_event_type (s_db s) (n_event n), s)) s6); [exact G6|].
    intros s' F' G'. cbn. apply dkeep_refl. apply G'. }
  cbn beta. intros ty s7 X7 G7 P7 F67 (C7 & mid & FM & GM & HT & _). cbn [fst] in HT.
  assert (D7 : dframe (db st1') (db s7)) by (eapply dframe_trans; [exact D6|apply (fr_db _ _ F67)]).
  assert (PRG : m_prog s7 = false) by (rewrite P7, P6; cbn; rewrite P5; cbn; rewrite P4; reflexivity).
  destruct ty as [ty|er|]; [|cbn; split; [apply (fx_text _ _ _ X7)|apply G7]|cbn; split; [apply (fx_text _ _ _ X7)|apply G7]].
  assert (TY : ty = e_type e).
  { unfold get_event_type in HT. fold (db mid) in HT. destruct (em_get (d_events (db mid)) (n_event n)) as [em|] eqn:Gm; [|discriminate].
    injection HT as ->. destruct (Live mid) as [_ L]; [eapply dframe_trans; [exact D6|apply (fr_db _ _ FM)]|]. symmetry. symmetry. apply L. exact Gm. }
  (* after the signalled flag is cleared nothing is in flight any more *)
  assert (Tail : forall s, framex (notice_of n) st s -> @good ex s -> m_prog s = false -> m_cur s = n_tpl n ->
    @okc ex _ (fun _ _ => True) st
     (obind (poll w rec s) (fun _ st11 =>
        obind (match n_fn n with
               | Some _ => rec (CRun (w_cb w (add_trace st11 (TRun n (m_cur st11) new match em_get (d_events (s_db (m_sys st11))) (n_event n) with Some _ => true | None => false end (m_guards st11))) n))
                               (add_trace st11 (TRun n (m_cur st11) new match em_get (d_events (s_db (m_sys st11))) (n_event n) with Some _ => true | None => false end (m_guards st11)))
               | None => ODone tt (add_trace st11 (TRun n (m_cur st11) new match em_get (d_events (s_db (m_sys st11))) (n_event n) with Some _ => true | None => false end (m_guards st11)))
               end) (fun _ st13 => rec (CLoop new) st13)))).
  { intros s X Gs Ps Cs. eapply (okx_bind ex ex); [exact PA|exact X|apply poll_ok; [apply REC|exact Gs]|]. cbn beta. intros [] s8 X8 G8 P8 F8 C8.
    set (tr := TRun n _ _ _ _). set (s9 := add_trace s8 tr).
    assert (F9 : @frame ex st s9).
    { destruct X8 as [T DB K RS]. assert (TG : text st s9).
      { destruct T as (l & E & H). exists (tr :: l). unfold s9. cbn. rewrite E. split; [reflexivity|]. constructor; [|exact H]. cbn. split; [exact LT|]. split; [congruence|apply G8]. }
      assert (TT : traced st s9 (notice_of n)).
      { destruct T as (l & E & H). exists n, (m_cur s8), new. unfold tr in *. eexists. exists (m_guards s8). split; [reflexivity|]. exists (tr :: l).
        unfold s9. cbn. rewrite E. split; [reflexivity|left; reflexivity]. }
      constructor.
      - exact G8.
      - unfold s9. cbn. congruence.
      - exact TG.
      - exact DB.
      - intros x Hx Lx. assert (DN : x = notice_of n \/ x <> notice_of n).
        { destruct (notice_eq_dec x (notice_of n)); auto. }
        destruct DN as [->|Nx]; [right; exact TT|]. destruct (K x Nx Hx Lx) as [H|H]; [left; exact H|].
        right. destruct H as (n' & t & l & al & gs & Q & more & E' & Hin). exists n', t, l, al, gs. split; [exact Q|]. exists (tr :: more).
        unfold s9. cbn. rewrite E'. split; [reflexivity|right; exact Hin].
      - exact RS. }
    assert (Fin : forall o, @okc ex _ (fun _ _ => True) s9 o -> @okc ex _ (fun _ _ => True) st (obind o (fun (_ : unit) st13 => rec (CLoop new) st13))).
    { intros o Ho. eapply (okc_bind (fun _ _ => True)); [exact G| |].
      - destruct o as [a so|so|]; cbn in *; auto; [split; [|exact Logic.I]; eapply frame_trans; [exact G|exact F9|apply Ho]|].
        split; [eapply text_trans; [apply (fr_text _ _ F9)|apply Ho]|apply Ho].
      - intros a so _ Go _. eapply okc_weaken; [apply REC; exact Go|auto]. }
    apply Fin. destruct (n_fn n); [|cbn; split; [apply frame_refl; apply (fr_good _ _ F9)|exact Logic.I]].
    eapply okc_weaken; [apply REC; apply (fr_good _ _ F9)|auto]. }
  rewrite C6 in C7. subst ty. unfold ex1 in *. destruct (is_notify_signal (e_type e)) eqn:SG.
  - (* clear *)
    unfold db_call. pose proof (raise_ok w rec (REC _) TPL_HIGH_LEVEL s7 G7) as R.
    destruct (do_raise w rec TPL_HIGH_LEVEL s7) as [prev s8|s8|]; cbn [obind]; [|destruct R as [T M]; split; [eapply text_trans; [apply (fx_text _ _ _ X7)|exact T]|exact M]|exact Logic.I].
    destruct R as [F8 (-> & C8 & _)]. pose proof (framex_step _ _ _ _ _ PA X7 F8) as X8. pose proof (fr_good _ _ F8) as G8.
    assert (D8 : dframe (db st1') (db s8)) by (eapply dframe_trans; [exact D7|apply (fr_db _ _ F8)]).
    unfold lift_db. fold (db s8). destruct (clear_signal (db s8) (n_event n)) as [cr d8] eqn:CL.
    destruct (Live s8 D8) as [L8 _]. pose proof (clear_inflight ex (db s8) _ _ _ (proj1 G8) L8 CL) as I8.
    destruct (clear_db _ _ _ _ CL) as (N8 & E8 & H8).
    set (s9 := set_sys s8 (MkSys d8 (s_time (m_sys s8)))).
    assert (G9 : @good ex s9) by (split; [exact I8|apply G8]).
    assert (X9 : framex (notice_of n) st s9).
    { destruct X8 as [T DB K RS]. constructor.
      - exact T.
      - eapply dframe_trans; [exact DB|]. unfold s9, db; cbn. fold (db s8). split; [lia|]. intros id e' _ Ge'. rewrite H8 in Ge'.
        destruct (N.eqb_spec id (n_event n)) as [->|]; [|eauto]. destruct (em_get (d_events (db s8)) (n_event n)) as [e0|]; [|discriminate].
        cbn in Ge'. injection Ge' as <-. exists e0. auto.
      - intros x Nx Hx Lx. unfold s9, pending, db in *. cbn in *. rewrite E8. apply K; auto. intros Q. apply Lx. rewrite H8.
        destruct (N.eqb_spec (notice_event x) (n_event n)) as [Ex|]; [|exact Q]. rewrite <- Ex. rewrite Q. reflexivity.
      - exact RS. }
    cbn [obind].
    pose proof (REC ex (CRestore (m_cur s7)) s9 G9) as R.
    destruct (rec (CRestore (m_cur s7)) s9) as [[] s10|s10|]; cbn [obind]; [|destruct R as [T M]; split; [eapply text_trans; [apply (fx_text _ _ _ X9)|exact T]|exact M]|exact Logic.I].
    destruct R as [F10 C10]. cbn in C10. apply Tail.
    + eapply framex_step; eauto.
    + apply (fr_good _ _ F10).
    + rewrite (fr_prog _ _ F10). unfold s9. cbn. rewrite (fr_prog _ _ F8). exact PRG.
    + congruence.
  - cbn [obind]. apply Tail; auto.
Qed.

Lemma run_ok ex p st : @good ex st -> @okc ex _ (fun _ _ => True) st (do_run w rec p st).
Proof.
  intros G. unfold do_run. eapply okc_bind; [exact G|apply poll_ok; [apply REC|exact G]|]. cbn beta. intros [] s1 F1 G1 _.
  destruct p.
  - cbn. split; [apply frame_refl; exact G1|exact I].
  - cbn. split; [apply text_refl|apply G1].
  - eapply okc_bind; [exact G1|apply svc_ok; [apply REC|exact G1]|]. intros r s2 F2 G2 _. eapply okc_weaken; [apply REC; exact G2|auto].
  - eapply okc_bind; [exact G1|apply raise_ok; [apply REC|exact G1]|]. intros r s2 F2 G2 _. eapply okc_weaken; [apply REC; exact G2|auto].
  - eapply okc_bind; [exact G1|apply REC; exact G1|]. intros r s2 F2 G2 _. eapply okc_weaken; [apply REC; exact G2|auto].
  - eapply okc_bind; [exact G1|apply try_lock_ok; [apply REC|exact G1]|]. intros r s2 F2 G2 _. eapply okc_weaken; [apply REC; exact G2|auto].
  - eapply okc_bind; [exact G1|apply drop_ok; [apply REC|exact G1]|]. intros r s2 F2 G2 _. eapply okc_weaken; [apply REC; exact G2|auto].
Qed.
End Loop.

(** ** Every execution *)
Theorem exec_ok w fuel : forall ex c st, @good ex st -> @okc ex _ (fun _ st' => post c st st') st (exec w fuel c st).
Proof.
  induction fuel as [|f IH]; intros ex c st G; cbn [exec]; [exact I|]. destruct c.
  - apply restore_ok; [apply IH|exact G].
  - apply loop_ok; [exact IH|exact G].
  - apply irq_ok; [apply IH|exact G].
  - apply run_ok; [exact IH|exact G].
Qed.

Definition calm (st : mach) : Prop := @good (fun _ => 0%nat) st.

Lemma new_calm dbg miss : calm (mach_new dbg miss).
Proof. split; [apply inv_new|]. split; [constructor|]. intros m []. Qed.

Lemma reached_calm w st : reached w st -> calm st.
Proof.
  induction 1 as [dbg miss|st fuel p st' _ IH E|st fuel new st' _ IH E|st fuel d st' _ IH E]; [apply new_calm|..];
    match type of E with exec w fuel ?c st = _ => pose proof (exec_ok w fuel _ c st IH) as H end; rewrite E in H; destruct H as [F _]; apply (fr_good _ _ F).
Qed.
