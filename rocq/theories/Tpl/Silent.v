(** Executions during which no interrupt is taken. *)
From Coq Require Import Sorting.Sorted.
From Verif Require Import Base.Prelude Event.Model Event.Spec Event.Proofs Event.Main Tpl.Model Tpl.Spec Tpl.Proofs.
Local Open Scope N_scope.

(** No notification waits above a level. *)
Definition below (L : N) (st : mach) : Prop := forall n, In n (d_pending (db st)) -> n_tpl n <= L.
Definition quiet (st : mach) : Prop := TPL_HIGH_LEVEL <= m_cur st \/ below (m_cur st) st.

(** Nothing happened, except that notifications of closed events may have left the head of the queue. *)
Definition idle (st st' : mach) : Prop :=
  m_prog st' = m_prog st /\ m_bits st' = m_bits st /\ m_guards st' = m_guards st /\ m_trace st' = m_trace st /\
  exists dead p', d_pending (db st) = dead ++ p' /\ Forall (fun n => em_get (d_events (db st)) (n_event n) = None) dead /\
    m_sys st' = MkSys (set_pending (db st) p') (s_time (m_sys st)).

Lemma sys_eta s : MkSys (set_pending (s_db s) (d_pending (s_db s))) (s_time s) = s.
Proof. destruct s as [d t]. destruct d. reflexivity. Qed.

Lemma core_idle st st' : same_core st st' -> idle st st'.
Proof.
  intros (A & B & C & D & E). split; [exact B|]. split; [exact C|]. split; [exact D|]. split; [exact E|].
  exists [], (d_pending (db st)). split; [reflexivity|]. split; [constructor|]. rewrite A. symmetry. apply sys_eta.
Qed.
Lemma idle_core a b c : idle a b -> same_core b c -> idle a c.
Proof.
  intros (A & B & C & D & dead & p & E1 & E2 & E3) (A' & B' & C' & D' & E'). split; [congruence|]. split; [congruence|]. split; [congruence|].
  split; [congruence|]. exists dead, p. split; [exact E1|]. split; [exact E2|]. congruence.
Qed.
Lemma core_idle_trans a b c : same_core a b -> idle b c -> idle a c.
Proof.
  intros (A' & B' & C' & D' & E') (A & B & C & D & dead & p & E1 & E2 & E3). unfold db in *. rewrite A' in *.
  split; [congruence|]. split; [congruence|]. split; [congruence|]. split; [congruence|]. exists dead, p. auto.
Qed.
Lemma idle_trans a b c : idle a b -> idle b c -> idle a c.
Proof.
  intros (A & B & C & D & dead & p & E1 & E2 & E3) (A' & B' & C' & D' & dead' & p' & E1' & E2' & E3').
  split; [congruence|]. split; [congruence|]. split; [congruence|]. split; [congruence|]. exists (dead ++ dead'), p'.
  unfold db in *. rewrite E3 in *. cbn [s_db s_time set_pending d_pending d_events] in *. rewrite E1, E1', app_assoc.
  split; [reflexivity|]. split; [apply Forall_app; auto|exact E3'].
Qed.
Lemma core_trans a b c : same_core a b -> same_core b c -> same_core a c.
Proof. unfold same_core. intros (A & B & C & D & E) (A' & B' & C' & D' & E'). rewrite A', B', C', D', E'. auto. Qed.
Lemma core_refl a : same_core a a.
Proof. unfold same_core. auto. Qed.
Lemma idle_refl a : idle a a.
Proof. apply core_idle, core_refl. Qed.
Lemma idle_below L a b : idle a b -> below L a -> below L b.
Proof.
  intros (_ & _ & _ & _ & dead & p & E1 & _ & E3) H n Hn. apply H. unfold db in *. rewrite E3 in Hn. cbn in Hn. rewrite E1. apply in_or_app. auto.
Qed.
Lemma idle_events a b : idle a b -> d_events (db b) = d_events (db a) /\ d_next (db b) = d_next (db a) /\ s_time (m_sys b) = s_time (m_sys a).
Proof. intros (_ & _ & _ & _ & dead & p & E1 & _ & E3). unfold db. rewrite E3. auto. Qed.

(** Outcomes: returned in a state satisfying [Q], or the fuel ran out. *)
Definition gives {A} (Q : A -> mach -> Prop) (o : outcome A) : Prop :=
  match o with ODone a st => Q a st | OPanicked _ => False | OFuel => True end.
(** As [gives], but a panic is allowed. *)
Definition may {A} (Q : A -> mach -> Prop) (o : outcome A) : Prop :=
  match o with ODone a st => Q a st | OPanicked _ => True | OFuel => True end.
Lemma gives_bind {A B} (Q1 : A -> mach -> Prop) (Q : B -> mach -> Prop) o f :
  gives Q1 o -> (forall a st, Q1 a st -> gives Q (f a st)) -> gives Q (obind o f).
Proof. destruct o; cbn; auto. Qed.
Lemma may_bind {A B} (Q1 : A -> mach -> Prop) (Q : B -> mach -> Prop) o f :
  may Q1 o -> (forall a st, Q1 a st -> may Q (f a st)) -> may Q (obind o f).
Proof. destruct o; cbn; auto. Qed.
Lemma gives_may {A} (Q : A -> mach -> Prop) o : gives Q o -> may Q o.
Proof. destruct o; cbn; auto. Qed.
Lemma may_mono {A} (Q Q' : A -> mach -> Prop) o : may Q o -> (forall a st, Q a st -> Q' a st) -> may Q' o.
Proof. destruct o; cbn; auto. Qed.

Section Silent.
Variable w : world.
Hypothesis SIL : silent w.

Lemma poll_silent rec st : poll w rec st = ODone tt (bump_clock st).
Proof. unfold poll. rewrite SIL. destruct (m_irq _); reflexivity. Qed.
Lemma bump_core st : same_core st (bump_clock st).
Proof. unfold same_core. cbn. auto. Qed.

Lemma raise_silent rec new st :
  match do_raise w rec new st with
  | ODone prev st' => prev = m_cur st /\ m_cur st' = new /\ m_cur st <= new /\ new <= TPL_HIGH_LEVEL /\ same_core st st'
  | OPanicked _ => new < m_cur st \/ TPL_HIGH_LEVEL < new
  | OFuel => False
  end.
Proof.
  unfold do_raise. destruct (N.ltb_spec TPL_HIGH_LEVEL new) as [H|H]; [right; exact H|]. rewrite poll_silent. cbn [obind].
  destruct (N.ltb_spec new (m_cur st)) as [H1|H1]; [left; exact H1|]. split; [reflexivity|].
  split; [destruct (_ && _); cbn; lia|]. split; [exact H1|]. split; [exact H|]. destruct (_ && _); unfold same_core; cbn; auto.
Qed.

(** With the dispatch flag set, restoring a level changes registers only. *)
Lemma loop_busy f new st : m_prog st = true -> exec w f (CLoop new) st = OFuel \/ exec w f (CLoop new) st = ODone tt st.
Proof. intros P. destruct f; cbn [exec]; [auto|]. unfold do_loop. rewrite P. auto. Qed.

Lemma restore_busy f new st : m_prog st = true -> new <= m_cur st ->
  gives (fun _ st' => m_cur st' = new /\ same_core st st') (exec w f (CRestore new) st).
Proof.
  intros P H. destruct f; cbn [exec]; [exact I|]. unfold do_restore. rewrite poll_silent. cbn [obind].
  destruct (N.ltb_spec (m_cur st) new); [lia|]. set (s1 := bump_clock _).
  assert (Step : forall s2, same_core st s2 -> gives (fun _ st' => m_cur st' = new /\ same_core st st')
     (obind (poll w (exec w f) (if new <? TPL_HIGH_LEVEL then set_irq s2 true else s2)) (fun _ st5 => ODone tt (set_cur st5 new)))).
  { intros s2 S2. rewrite poll_silent. cbn. split; [reflexivity|]. destruct (_ <? _); unfold same_core in *; cbn; tauto. }
  assert (S1 : same_core st s1) by (unfold same_core; cbn; auto).
  destruct (new <? m_cur st).
  - destruct (loop_busy f new s1 P) as [E|E]; rewrite E; cbn [obind]; [exact I|]. apply Step. exact S1.
  - cbn [obind]. apply Step. exact S1.
Qed.

Lemma db_call_busy f {A} (g : evsys -> A * evsys) st : m_prog st = true -> m_cur st <= TPL_HIGH_LEVEL ->
  gives (fun a st' => a = fst (g (m_sys st)) /\ m_cur st' = m_cur st /\ same_core (set_sys st (snd (g (m_sys st)))) st')
    (db_call w (exec w f) g st).
Proof.
  intros P H. unfold db_call. pose proof (raise_silent (exec w f) TPL_HIGH_LEVEL st) as R.
  destruct (do_raise _ _ _ _) as [prev s1|s1|]; cbn [obind]; [|lia|exact I]. destruct R as (-> & C1 & _ & _ & K). destruct K as (K1 & K2 & K3 & K4 & K5).
  rewrite K1. destruct (g (m_sys st)) as [a s'] eqn:Eg. cbn [fst snd].
  eapply gives_bind; [apply (restore_busy f (m_cur st) (set_sys s1 s')); cbn; [congruence|lia]|]. cbn beta. intros [] s2 (C2 & S2). cbn.
  split; [reflexivity|]. split; [exact C2|]. destruct S2 as (A1 & A2 & A3 & A4 & A5). unfold same_core. cbn in *. repeat split; congruence.
Qed.

(** A turn of the dispatch loop up to the notification function. *)
Lemma consume_step f new st : m_prog st = false -> m_cur st <= TPL_HIGH_LEVEL ->
  gives (fun r st' => r = fst (consume_next (db st) new) /\ m_prog st' = true /\ m_cur st' = m_cur st /\
     same_core (set_sys (set_prog st true) (MkSys (snd (consume_next (db st) new)) (s_time (m_sys st)))) st')
    (db_call w (exec w f) (lift_db (fun d => consume_next d new)) (set_prog st true)).
Proof.
  intros P H. pose proof (db_call_busy f (lift_db (fun d => consume_next d new)) (set_prog st true) eq_refl H) as D.
  destruct (db_call _ _ _ _) as [r s1|s1|]; cbn [gives] in *; [|exact D|exact D]. destruct D as (-> & C & S). cbn [set_prog m_sys] in *. unfold lift_db in *. fold (db st) in *.
  destruct (consume_next (db st) new) as [r d']. cbn [fst snd] in *. split; [reflexivity|]. split; [destruct S as (_ & S & _); rewrite S; reflexivity|].
  split; [exact C|]. exact S.
Qed.

Lemma consume_below d L r d' : (forall n, In n (d_pending d) -> n_tpl n <= L) -> consume_next d L = (r, d') ->
  r = None /\ exists dead, d_pending d = dead ++ d_pending d' /\ Forall (fun n => em_get (d_events d) (n_event n) = None) dead /\ d' = set_pending d (d_pending d').
Proof.
  intros H E. unfold consume_next in E. destruct (drop_closed_split (d_events d) (d_pending d)) as (dead & E1 & F1 & _).
  destruct (drop_closed (d_events d) (d_pending d)) as [|n t] eqn:ED.
  - injection E as <- <-. split; [reflexivity|]. exists dead. cbn. auto.
  - destruct (N.leb_spec (n_tpl n) L).
    + injection E as <- <-. split; [reflexivity|]. exists dead. cbn. auto.
    + exfalso. specialize (H n). rewrite E1 in H. specialize (H ltac:(apply in_or_app; cbn; auto)). lia.
Qed.

Lemma loop_idle f new st : m_prog st = false -> m_cur st <= TPL_HIGH_LEVEL -> below new st ->
  gives (fun _ st' => idle st st') (exec w f (CLoop new) st).
Proof.
  intros P H B. destruct f; cbn [exec]; [exact I|]. unfold do_loop. rewrite P.
  eapply gives_bind; [apply consume_step; assumption|]. cbn beta. intros r s1 (-> & P1 & C1 & S1).
  destruct (consume_next (db st) new) as [r d'] eqn:EC. destruct (consume_below (db st) new r d' B EC) as (-> & dead & E1 & F1 & E2). cbn [fst snd] in *.
  rewrite !poll_silent. cbn [obind]. rewrite poll_silent. cbn [obind gives]. destruct S1 as (A1 & A2 & A3 & A4 & A5). cbn in A1, A2, A3, A4, A5.
  unfold idle. cbn. split; [congruence|]. split; [congruence|]. split; [congruence|]. split; [congruence|].
  exists dead, (d_pending d'). split; [exact E1|]. split; [exact F1|]. rewrite A1, <- E2. reflexivity.
Qed.

Lemma restore_idle f new st : m_prog st = false -> m_cur st <= TPL_HIGH_LEVEL -> new <= m_cur st -> (new < m_cur st -> below new st) ->
  gives (fun _ st' => m_cur st' = new /\ idle st st') (exec w f (CRestore new) st).
Proof.
  intros P HH H B. destruct f; cbn [exec]; [exact I|]. unfold do_restore. rewrite poll_silent. cbn [obind].
  destruct (N.ltb_spec (m_cur st) new); [lia|]. set (s1 := bump_clock _).
  assert (Step : forall s2, idle st s2 -> gives (fun _ st' => m_cur st' = new /\ idle st st')
     (obind (poll w (exec w f) (if new <? TPL_HIGH_LEVEL then set_irq s2 true else s2)) (fun _ st5 => ODone tt (set_cur st5 new)))).
  { intros s2 S2. rewrite poll_silent. cbn [obind gives]. split; [reflexivity|]. eapply idle_core; [exact S2|]. destruct (_ <? _); unfold same_core in *; cbn; tauto. }
  assert (S1 : same_core st s1) by (unfold same_core; cbn; auto).
  destruct (N.ltb_spec new (m_cur st)) as [L|L].
  - eapply gives_bind; [apply loop_idle|].
    + exact P.
    + unfold s1. cbn. lia.
    + intros n Hn. apply (B L). destruct S1 as (A & _). unfold db in *. rewrite A in Hn. exact Hn.
    + cbn beta. intros [] s2 I2. apply Step. eapply core_idle_trans; eauto.
  - cbn [obind]. apply Step. apply core_idle. exact S1.
Qed.

Lemma core_below L a b : same_core a b -> below L a -> below L b.
Proof. intros S. apply idle_below. apply core_idle. exact S. Qed.

(** A read of the database at a level where nothing waits above. *)
Lemma db_read_idle f {A} (g : evsys -> A) st : m_prog st = false -> m_cur st <= TPL_HIGH_LEVEL -> below (m_cur st) st ->
  gives (fun a st' => a = g (m_sys st) /\ m_cur st' = m_cur st /\ idle st st') (db_call w (exec w f) (fun s => (g s, s)) st).
Proof.
  intros P H B. unfold db_call. pose proof (raise_silent (exec w f) TPL_HIGH_LEVEL st) as R.
  destruct (do_raise _ _ _ _) as [prev s1|s1|]; cbn [obind]; [|lia|exact I]. destruct R as (-> & C1 & _ & _ & K).
  assert (K' : same_core st (set_sys s1 (m_sys s1))) by (unfold same_core in *; cbn; tauto).
  eapply gives_bind; [apply (restore_idle f (m_cur st) (set_sys s1 (m_sys s1)))|].
  - cbn. destruct K as (_ & K & _). congruence.
  - cbn. lia.
  - cbn. lia.
  - intros _. eapply core_below; eauto.
  - cbn beta. intros [] s2 (C2 & I2). cbn. destruct K as (K1 & _). split; [rewrite K1; reflexivity|]. split; [exact C2|]. eapply core_idle_trans; eauto.
Qed.

(** ** The dispatch loop drains *)
Notation ok := (@okc (fun _ => 0%nat)).
Notation fr := (@frame (fun _ => 0%nat)).

Definition isalive (t : tevent) : Prop := match t with TRun _ _ _ b _ => b = true end.
Definition talive (st st' : mach) : Prop := exists tr, m_trace st' = tr ++ m_trace st /\ Forall isalive tr.
Lemma talive_refl st : talive st st.
Proof. exists []. split; [reflexivity|constructor]. Qed.
Lemma talive_same st st' : m_trace st' = m_trace st -> talive st st'.
Proof. intros E. exists []. rewrite E. split; [reflexivity|constructor]. Qed.
Lemma talive_trans a b c : talive a b -> talive b c -> talive a c.
Proof.
  intros (x & Ex & Fx) (y & Ey & Fy). exists (y ++ x). split; [rewrite Ey, Ex, app_assoc; reflexivity|]. apply Forall_app. auto.
Qed.

Lemma combine {A} (Q Q' : A -> mach -> Prop) st o : ok Q st o -> may Q' o -> may (fun a st' => fr st st' /\ Q a st' /\ Q' a st') o.
Proof. destruct o; cbn; tauto. Qed.

Definition spre (c : cmd) (st : mach) : Prop :=
  match c with
  | CRestore new => m_cur st = new -> quiet st
  | CLoop new => True
  | CIrq _ | CRun _ => quiet st
  end.
Definition spost (c : cmd) (st st' : mach) : Prop :=
  talive st st' /\
  match c with
  | CRestore new => quiet st' /\ (new < m_cur st -> below new st')
  | CLoop new => below new st'
  | CIrq _ | CRun _ => quiet st'
  end.

Lemma calm_core st st' : calm st -> same_core st st' -> calm st'.
Proof. intros G S. apply (fr_good _ _ (same_frame_mach st st' G S)). Qed.

Lemma idle_inv st st' : idle st st' -> ev_inv (db st) -> ev_inv (db st').
Proof.
  intros (_ & _ & _ & _ & dead & p & E1 & F1 & E3) I. unfold db in *. rewrite E3. cbn. apply inv_set_pending; [exact I|..].
  - apply (sorted_suffix nb dead). rewrite <- E1. apply (iv_psorted _ I).
  - intros n Hn. rewrite E1. apply in_or_app. auto.
  - intros e He Se. rewrite E1, cnt_app, (cnt_dead (d_events (s_db (m_sys st))) dead e (iv_sorted _ I) F1 He). reflexivity.
Qed.
Lemma idle_calm st st' : idle st st' -> calm st -> calm st'.
Proof.
  intros I [J M]. split; [eapply idle_inv; eauto|]. destruct I as (_ & A & B & _). unfold minv, held in *. rewrite A, B. exact M.
Qed.

Section Step.
Variable f : nat.
Hypothesis IH : forall c st, calm st -> m_prog st = false -> spre c st -> may (fun _ st' => spost c st st') (exec w f c st).
Notation rec := (exec w f).

Lemma rec_all c st : calm st -> m_prog st = false -> spre c st ->
  may (fun _ st' => fr st st' /\ m_prog st' = false /\ post c st st' /\ spost c st st') (rec c st).
Proof.
  intros G P S. eapply may_mono; [eapply combine; [apply exec_ok; exact G|apply IH; assumption]|]. cbn beta. intros [] st' (A & B & C).
  split; [exact A|]. split; [rewrite (fr_prog _ _ A); exact P|]. auto.
Qed.

Lemma raise_may new st : may (fun prev st' => prev = m_cur st /\ m_cur st' = new /\ m_cur st <= new /\ new <= TPL_HIGH_LEVEL /\ same_core st st') (do_raise w rec new st).
Proof. pose proof (raise_silent rec new st) as R. destruct (do_raise _ _ _ _); cbn; auto. Qed.

(** A database operation drains on its way out. *)
Lemma db_call_s {A} (g : evsys -> A * evsys) st : calm st -> m_prog st = false -> ev_inv (s_db (snd (g (m_sys st)))) ->
  may (fun a st' => a = fst (g (m_sys st)) /\ talive st st' /\ quiet st' /\ m_prog st' = false /\ m_cur st' = m_cur st /\ calm st' /\
         fr (set_sys st (snd (g (m_sys st)))) st') (db_call w rec g st).
Proof.
  intros G P K. unfold db_call. eapply may_bind; [apply raise_may|]. cbn beta. intros prev s1 (-> & C1 & LE & _ & S1).
  pose proof S1 as (A1 & A2 & A3 & A4 & A5). rewrite A1. destruct (g (m_sys st)) as [a s'] eqn:Eg. cbn [fst snd] in *.
  pose proof (calm_core _ _ G S1) as G1. assert (G2 : calm (set_sys s1 s')) by (split; [exact K|apply G1]).
  eapply may_bind; [apply rec_all; [exact G2|cbn; congruence|cbn; intros _; left; rewrite <- C1; cbn; lia]|].
  cbn beta. intros [] s2 (F2 & P2 & C2 & T2 & Q2 & _). cbn [may]. split; [reflexivity|].
  split; [eapply talive_trans; [|exact T2]; apply talive_same; exact A5|]. split; [exact Q2|]. split; [exact P2|]. split; [exact C2|].
  split; [apply (fr_good _ _ F2)|].
  assert (SC : same_core (set_sys st s') (set_sys s1 s')) by (unfold same_core; cbn; auto).
  assert (G0 : calm (set_sys st s')) by (split; [exact K|apply G]).
  eapply frame_trans; [exact G0|apply same_frame_mach; [exact G0|exact SC]|exact F2].
Qed.

Lemma nudge_s st : calm st -> m_prog st = false ->
  may (fun _ st' => talive st st' /\ quiet st' /\ m_prog st' = false /\ m_cur st' = m_cur st /\ fr st st') (nudge w rec st).
Proof.
  intros G P. unfold nudge. eapply may_bind; [apply raise_may|]. cbn beta. intros prev s1 (-> & C1 & LE & _ & S1).
  pose proof S1 as (A1 & A2 & A3 & A4 & A5). pose proof (calm_core _ _ G S1) as G1.
  eapply may_mono; [apply rec_all; [exact G1|congruence|cbn; intros _; left; rewrite <- C1; cbn; lia]|].
  cbn beta. intros [] s2 (F2 & P2 & C2 & T2 & Q2 & _). split; [eapply talive_trans; [|exact T2]; apply talive_same; exact A5|].
  split; [exact Q2|]. split; [exact P2|]. split; [exact C2|]. eapply frame_trans; [exact G|apply same_frame_mach; [exact G|exact S1]|exact F2].
Qed.

Definition sdone (st : mach) {A} (_ : A) (st' : mach) : Prop := talive st st' /\ quiet st'.

Lemma step_s o st : calm st -> m_prog st = false ->
  may (fun a st' => a = fst (ev_step (m_sys st) o) /\ talive st st' /\ quiet st' /\ m_prog st' = false /\ m_cur st' = m_cur st /\ calm st' /\
         fr (set_sys st (snd (ev_step (m_sys st) o))) st') (db_call w rec (fun s => ev_step s o) st).
Proof.
  intros G P. apply (db_call_s (fun s => ev_step s o) st G P). destruct (ev_step (m_sys st) o) as [out s'] eqn:E.
  destruct (step_inv (m_sys st) o out s' (proj1 G) E) as (I' & _). exact I'.
Qed.

Lemma lift_s {A} (g : evdb -> A * evdb) st : calm st -> m_prog st = false -> ev_inv (snd (g (db st))) ->
  may (fun a st' => a = fst (g (db st)) /\ talive st st' /\ quiet st' /\ m_prog st' = false /\ m_cur st' = m_cur st /\ calm st' /\
         fr (set_sys st (MkSys (snd (g (db st))) (s_time (m_sys st)))) st') (db_call w rec (lift_db g) st).
Proof.
  intros G P K. eapply may_mono; [apply (db_call_s (lift_db g) st G P)|].
  - unfold lift_db. fold (db st). destruct (g (db st)). exact K.
  - cbn beta. unfold lift_db. fold (db st). destruct (g (db st)). auto.
Qed.

Lemma dkeep_inv d d' : @dkeep (fun _ => 0%nat) d d' -> ev_inv d' /\ dframe d d'.
Proof. intros (A & B & _). auto. Qed.

Lemma check_s id st : calm st -> m_prog st = false -> quiet st -> may (sdone st) (do_check w rec id st).
Proof.
  intros G P Q. unfold do_check.
  eapply may_bind; [apply (db_call_s (fun s => (get_event_type (s_db s) id, s)) st G P); exact (proj1 G)|].
  cbn beta. cbn [fst snd]. intros ty s1 (HT & T1 & Q1 & P1 & _ & G1 & F1). destruct ty as [ty|er|]; [|cbn; split; assumption|exact I].
  destruct (is_notify_signal ty) eqn:SG; [cbn; split; assumption|].
  assert (NS : not_signal (db st) id /\ id < d_next (db st)).
  { unfold get_event_type in HT. fold (db st) in HT. destruct (em_get (d_events (db st)) id) as [e|] eqn:Ge; [|discriminate]. injection HT as ->.
    split; [intros e' Ge'; congruence|eapply live_next; eauto]. }
  assert (Later : forall s, dframe (db st) (db s) -> not_signal (db s) id).
  { intros s DF. destruct NS as [NS L]. eapply not_signal_later; eauto. }
  assert (D1 : dframe (db st) (db s1)) by apply (fr_db _ _ F1).
  pose proof (read_clear_dkeep (db s1) id (proj1 G1) (Later s1 D1)) as (I2 & DF2 & _).
  eapply may_bind; [apply (lift_s (fun d => read_and_clear_signaled d id) s1 G1 P1); exact I2|].
  cbn beta. intros r s2 (_ & T2 & Q2 & P2 & _ & G2 & F2).
  assert (D2 : dframe (db st) (db s2)) by (eapply dframe_trans; [exact D1|eapply dframe_trans; [exact DF2|apply (fr_db _ _ F2)]]).
  assert (TT2 : talive st s2) by (eapply talive_trans; eauto).
  destruct r as [[|]|er|]; [cbn; split; assumption| |cbn; split; assumption|exact I].
  pose proof (queue_dkeep (db s2) id (proj1 G2) (Later s2 D2)) as (I3 & DF3 & _).
  eapply may_bind; [apply (lift_s (fun d => queue_event_notify d id) s2 G2 P2); exact I3|].
  cbn beta. intros q s3 (_ & T3 & Q3 & P3 & _ & G3 & F3).
  assert (D3 : dframe (db st) (db s3)) by (eapply dframe_trans; [exact D2|eapply dframe_trans; [exact DF3|apply (fr_db _ _ F3)]]).
  assert (TT3 : talive st s3) by (eapply talive_trans; eauto).
  destruct q as [u|er|]; [|cbn; split; assumption|exact I].
  eapply may_bind; [apply nudge_s; assumption|]. cbn beta. intros [] s4 (T4 & Q4 & P4 & _ & F4).
  assert (D4 : dframe (db st) (db s4)) by (eapply dframe_trans; [exact D3|apply (fr_db _ _ F4)]).
  pose proof (fr_good _ _ F4) as G4.
  pose proof (read_clear_dkeep (db s4) id (proj1 G4) (Later s4 D4)) as (I5 & DF5 & _).
  eapply may_bind; [apply (lift_s (fun d => read_and_clear_signaled d id) s4 G4 P4); exact I5|].
  cbn beta. intros r s5 (_ & T5 & Q5 & P5 & _ & G5 & F5).
  assert (TT5 : talive st s5) by (eapply talive_trans; [exact TT3|eapply talive_trans; eauto]).
  destruct r as [[|]|er|]; [cbn; split; assumption|cbn; split; assumption|cbn; split; assumption|exact I].
Qed.

Lemma panic_if_s st o : may (sdone st) o -> may (sdone st) (panic_if true o).
Proof. intros H. unfold panic_if. eapply may_bind; [exact H|]. intros a s1 D. destruct a; cbn; auto. Qed.

Lemma svc_s o st : calm st -> m_prog st = false -> quiet st -> may (sdone st) (do_svc w rec o st).
Proof.
  intros G P Q. unfold do_svc. apply panic_if_s.
  assert (Plain : forall op, may (sdone st) (db_call w rec (fun s => ev_step s op) st)).
  { intros op. eapply may_mono; [apply step_s; assumption|]. cbn beta. intros a s1 (_ & T & Q1 & _). split; assumption. }
  destruct o; try apply Plain; [|apply check_s; assumption].
  eapply may_bind; [apply step_s; assumption|]. cbn beta. intros r s1 (_ & T1 & Q1 & P1 & _ & G1 & _).
  eapply may_bind; [apply nudge_s; assumption|]. cbn beta. intros [] s2 (T2 & Q2 & _). cbn. split; [eapply talive_trans; eauto|exact Q2].
Qed.

Lemma quiet_up st st' : quiet st -> same_core st st' -> m_cur st <= m_cur st' -> quiet st'.
Proof.
  intros [Q|Q] S L; [left; lia|]. right. intros n Hn. destruct S as (A & _). unfold db in Hn. rewrite A in Hn. specialize (Q n Hn). lia.
Qed.
Lemma quiet_core st st' : quiet st -> m_sys st' = m_sys st -> m_cur st' = m_cur st -> quiet st'.
Proof. intros Q A B. unfold quiet, below, db in *. rewrite A, B. exact Q. Qed.

Lemma try_lock_s m st : calm st -> m_prog st = false -> quiet st -> may (sdone st) (do_try_lock w rec m st).
Proof.
  intros G P Q. unfold do_try_lock. destruct (w_sdk w m).
  - destruct (m_bits st m); [cbn; split; [apply talive_refl|exact Q]|]. rewrite poll_silent. cbn [obind].
    eapply may_bind; [apply raise_may|]. cbn beta. intros prev s1 (_ & C1 & LE & _ & S1). cbn [may]. destruct S1 as (A1 & A2 & A3 & A4 & A5). cbn in A1, A5, LE, C1.
    split; [apply talive_same; exact A5|]. destruct Q as [Q|Q]; [left; cbn; lia|]. right. intros n Hn. unfold db in Hn. cbn in Hn. rewrite A1 in Hn.
    specialize (Q n Hn). cbn. lia.
  - eapply may_bind; [apply raise_may|]. cbn beta. intros prev s1 (-> & C1 & LE & LH & S1). rewrite poll_silent. cbn [obind].
    pose proof S1 as (A1 & A2 & A3 & A4 & A5).
    destruct (m_bits (bump_clock s1) m).
    + assert (S2 : same_core st (bump_clock s1)) by (unfold same_core in *; cbn; tauto).
      eapply may_bind; [apply rec_all; [eapply calm_core; eauto|cbn; congruence|]|].
      * cbn. intros E. eapply quiet_up; [exact Q|exact S2|cbn; lia].
      * cbn beta. intros [] s2 (F2 & P2 & C2 & T2 & Q2 & _). cbn. split; [eapply talive_trans; [|exact T2]; apply talive_same; exact A5|exact Q2].
    + cbn. split; [apply talive_same; exact A5|]. eapply (quiet_core s1); [eapply quiet_up; [exact Q|exact S1|lia]|reflexivity|reflexivity].
Qed.

Lemma drop_s m st : calm st -> m_prog st = false -> quiet st -> may (sdone st) (do_drop w rec m st).
Proof.
  intros G P Q. unfold do_drop. destruct (take_guard m (m_guards st)) as [[prev g]|] eqn:T; [|cbn; split; [apply talive_refl|exact Q]].
  destruct (take_guard_spec _ _ _ _ T) as (a & b & EG & -> & Na). pose proof G as [I [ND B]].
  assert (ND1 : NoDup (map fst (a ++ b)) /\ ~ In m (map fst (a ++ b))).
  { rewrite EG, map_app in ND. cbn in ND. rewrite map_app. split; [eapply NoDup_remove_1; exact ND|eapply NoDup_remove_2; exact ND]. }
  destruct ND1 as [ND1 NI].
  assert (Sub : forall i, In i (map fst (a ++ b)) -> held st i).
  { intros i Hi. unfold held. rewrite EG. rewrite map_app in *. cbn. apply in_app_iff in Hi. apply in_app_iff. cbn. tauto. }
  destruct (w_sdk w m).
  - assert (G1 : calm (set_guards st (a ++ b))) by (split; [exact I|split; [exact ND1|intros i Hi; apply B; apply Sub; exact Hi]]).
    eapply may_bind; [apply rec_all; [exact G1|exact P|cbn; intros _; exact Q]|]. cbn beta. intros [] s2 (F2 & P2 & C2 & T2 & Q2 & _). cbn. split; [exact T2|exact Q2].
  - rewrite poll_silent. cbn [obind].
    assert (G1 : calm (bump_clock (set_bit (set_guards st (a ++ b)) m false))).
    { split; [exact I|]. split; [exact ND1|]. intros i Hi. cbn. destruct (N.eqb_spec i m); [subst; elim NI; exact Hi|]. apply B. apply Sub. exact Hi. }
    eapply may_mono; [apply rec_all; [exact G1|exact P|cbn; intros _; exact Q]|]. cbn beta. intros [] s2 (F2 & P2 & C2 & T2 & Q2 & _). split; [exact T2|exact Q2].
Qed.

Lemma run_s p st : calm st -> m_prog st = false -> quiet st -> may (fun _ st' => spost (CRun p) st st') (do_run w rec p st).
Proof.
  intros G P Q. unfold do_run. rewrite poll_silent. cbn [obind]. set (s0 := bump_clock st).
  assert (G0 : calm s0) by exact G. assert (Q0 : quiet s0) by exact Q. assert (P0 : m_prog s0 = false) by exact P.
  assert (Fin : forall {A} (o : outcome A) (Q' : A -> mach -> Prop) k, ok Q' s0 o -> may (sdone s0) o ->
     may (fun _ st' => spost (CRun p) st st') (obind o (fun a s => rec (CRun (k a)) s))).
  { intros A o Q' k O M. pose proof (combine _ _ _ _ O M) as C. eapply may_bind; [exact C|]. cbn beta. intros a s1 (F1 & _ & T1 & Q1).
    eapply may_mono; [apply rec_all; [apply (fr_good _ _ F1)|rewrite (fr_prog _ _ F1); exact P|exact Q1]|].
    cbn beta. intros [] s2 (_ & _ & _ & T2 & Q2). split; [eapply talive_trans; [exact T1|exact T2]|exact Q2]. }
  destruct p; cbn [may].
  - split; [apply talive_same; reflexivity|exact Q0].
  - exact I.
  - eapply Fin; [apply svc_ok; [apply exec_ok|exact G0]|apply svc_s; assumption].
  - eapply Fin; [apply raise_ok; [apply exec_ok|exact G0]|]. eapply may_mono; [apply raise_may|]. cbn beta. intros a s1 (_ & C1 & LE & _ & S1).
    split; [apply talive_same; apply S1|]. eapply quiet_up; [exact Q0|exact S1|lia].
  - apply (Fin unit (rec (CRestore tpl) s0) (fun _ _ => True) (fun _ => p)).
    + eapply okc_weaken; [apply exec_ok; exact G0|auto].
    + eapply may_mono; [apply IH; [exact G0|exact P|cbn; intros _; exact Q0]|]. cbn beta. intros [] s1 (T1 & Q1 & _). split; assumption.
  - eapply Fin; [apply try_lock_ok; [apply exec_ok|exact G0]|apply try_lock_s; assumption].
  - apply (Fin unit (do_drop w rec m s0) (fun _ _ => True) (fun _ => p)).
    + eapply okc_weaken; [apply drop_ok; [apply exec_ok|exact G0]|auto].
    + apply drop_s; assumption.
Qed.

Lemma irq_s d st : calm st -> m_prog st = false -> quiet st -> may (fun _ st' => spost (CIrq d) st st') (do_irq w rec d st).
Proof.
  intros G P Q. unfold do_irq. eapply may_bind; [apply raise_may|]. cbn beta. intros old s1 (-> & C1 & LE & _ & S1).
  assert (S1' : same_core st s1) by (unfold same_core in *; cbn in *; tauto). pose proof (calm_core _ _ G S1') as G1.
  assert (P1 : m_prog s1 = false) by (destruct S1' as (_ & A & _); congruence).
  eapply may_bind; [unfold panic_if; eapply may_bind; [apply (step_s (OTick d) s1 G1 P1)|]|].
  - cbn beta. intros r s2 H. instantiate (1 := fun _ s2 => talive s1 s2 /\ m_prog s2 = false /\ m_cur s2 = m_cur s1 /\ calm s2).
    destruct r; cbn; tauto.
  - cbn beta. intros r s2 (T2 & P2 & C2 & G2). cbn [set_irq m_cur].
    eapply may_bind; [apply rec_all; [exact G2|exact P2|cbn; intros E; left; rewrite C2, C1; cbn; lia]|].
    cbn beta. intros [] s3 (F3 & P3 & C3 & T3 & Q3 & _). cbn. split; [|exact Q3].
    eapply talive_trans; [apply talive_same; apply S1'|]. eapply talive_trans; [exact T2|exact T3].
Qed.

Lemma restore_s new st : calm st -> m_prog st = false -> (m_cur st = new -> quiet st) -> may (fun _ st' => spost (CRestore new) st st') (do_restore w rec new st).
Proof.
  intros G P Q. unfold do_restore. rewrite poll_silent. cbn [obind]. destruct (N.ltb_spec (m_cur st) new) as [L|L]; [exact I|].
  set (s1 := bump_clock _). assert (S1 : same_core st s1) by (unfold same_core; cbn; auto). pose proof (calm_core _ _ G S1) as G1.
  assert (Step : forall s2, talive st s2 -> (new < m_cur st -> below new s2) -> (m_cur st = new -> same_core st s2) ->
     may (fun _ st' => spost (CRestore new) st st')
     (obind (poll w rec (if new <? TPL_HIGH_LEVEL then set_irq s2 true else s2)) (fun _ st5 => ODone tt (set_cur st5 new)))).
  { intros s2 T2 B2 S2. rewrite poll_silent. cbn [obind may]. 
    assert (MS : m_sys (set_cur (bump_clock (if new <? TPL_HIGH_LEVEL then set_irq s2 true else s2)) new) = m_sys s2) by (destruct (_ <? _); reflexivity).
    assert (MT : m_trace (set_cur (bump_clock (if new <? TPL_HIGH_LEVEL then set_irq s2 true else s2)) new) = m_trace s2) by (destruct (_ <? _); reflexivity).
    assert (BB : new < m_cur st -> below new (set_cur (bump_clock (if new <? TPL_HIGH_LEVEL then set_irq s2 true else s2)) new)).
    { intros H n Hn. unfold db in Hn. rewrite MS in Hn. apply (B2 H n Hn). }
    split; [eapply talive_trans; [exact T2|]; apply talive_same; exact MT|]. split; [|exact BB].
    destruct (N.eq_dec (m_cur st) new) as [E|E]; [|right; apply BB; lia].
    specialize (Q E). specialize (S2 E). destruct S2 as (S2 & _). eapply (quiet_core st); [exact Q|congruence|cbn; congruence]. }
  destruct (N.ltb_spec new (m_cur st)) as [H|H].
  - eapply may_bind; [apply (rec_all (CLoop new) s1); [exact G1|exact P|exact I]|]. cbn beta. intros [] s2 (_ & _ & _ & T2 & B2).
    apply Step; [eapply talive_trans; [|exact T2]; apply talive_same; reflexivity|auto|intros; lia].
  - cbn [obind]. apply Step; [apply talive_same; reflexivity|intros; lia|auto].
Qed.

(** The state at the entry of a notification function. *)
Lemma loop_s new st : calm st -> m_prog st = false -> may (fun _ st' => spost (CLoop new) st st') (do_loop w rec new st).
Proof.
  intros G P. unfold do_loop. rewrite P. destruct (N.leb_spec (m_cur st) TPL_HIGH_LEVEL) as [HC|HC].
  2:{ eapply may_bind with (Q1 := fun _ _ => False); [|contradiction]. unfold db_call. eapply may_bind; [apply raise_may|].
      cbn beta. intros prev s1 (_ & _ & LE & LH & _). cbn in LE. lia. }
  eapply may_bind; [apply gives_may; apply consume_step; assumption|]. cbn beta. intros r s1 (-> & P1 & C1 & S1).
  destruct (consume_next (db st) new) as [r d'] eqn:EC. cbn [fst snd] in *.
  rewrite !poll_silent. cbn [obind]. rewrite poll_silent. cbn [obind]. destruct S1 as (A1 & A2 & A3 & A4 & A5). cbn in A1, A2, A3, A4, A5.
  destruct (consume_spec (db st) new r d' (proj1 G) EC) as (EE & FR & dead & FD & H). destruct r as [n|].
  2:{ cbn [may]. destruct H as (_ & LE & _). split; [apply talive_same; cbn; exact A5|]. intros n Hn. unfold db in Hn. cbn in Hn. rewrite A1 in Hn. auto. }
  destruct H as (EP & LT & e & Ge). rewrite !poll_silent. cbn [obind]. rewrite poll_silent. cbn [obind].
  set (s2 := bump_clock (set_cur _ _)).
  assert (S2 : m_sys s2 = MkSys d' (s_time (m_sys st)) /\ m_prog s2 = false /\ m_bits s2 = m_bits st /\ m_guards s2 = m_guards st /\ m_trace s2 = m_trace st /\ m_cur s2 = n_tpl n).
  { unfold s2. cbn. auto 10. }
  destruct S2 as (B1 & B2 & B3 & B4 & B5 & B6).
  assert (BL : below (n_tpl n) s2).
  { intros m Hm. unfold db in Hm. rewrite B1 in Hm. cbn in Hm. pose proof (iv_psorted _ (proj1 G)) as SS. rewrite EP in SS.
    apply sorted_suffix in SS. inversion SS as [|? ? _ FA]; subst. rewrite Forall_forall in FA. specialize (FA m Hm). apply nb_iff in FA. lia. }
  destruct (N.leb_spec (n_tpl n) TPL_HIGH_LEVEL) as [HN|HN].
  2:{ eapply may_bind with (Q1 := fun _ _ => False); [|contradiction]. unfold db_call. eapply may_bind; [apply raise_may|].
      cbn beta. intros prev s3 (_ & _ & LE & LH & _). rewrite B6 in LE. lia. }
  eapply may_bind; [apply gives_may; apply (db_read_idle f (fun s => get_event_type (s_db s) (n_event n)) s2); [exact B2|lia|rewrite B6; exact BL]|].
  cbn beta. intros ty s3 (-> & C3 & I3). rewrite B6 in C3.
  unfold get_event_type. rewrite B1. cbn [s_db]. rewrite EE, Ge.
  destruct (dispatch_spec (db st) new (fst (svc_dispatch (db st) new)) (snd (svc_dispatch (db st) new)) (proj1 G) (surjective_pairing _)) as (ID & _ & dead' & FD' & HD).
  assert (SD : svc_dispatch (db st) new = (RNotify (Some n), if is_notify_signal (e_type e) then snd (clear_signal d' (n_event n)) else d')).
  { unfold svc_dispatch. rewrite EC. unfold get_event_type. rewrite EE, Ge. destruct (is_notify_signal (e_type e)); reflexivity. }
  rewrite SD in ID, HD. cbn [fst snd] in ID, HD. clear HD FD' dead'.
  pose proof (idle_below _ _ _ I3 BL) as BL3. destruct (idle_events _ _ I3) as (EV3 & NX3 & TM3).
  assert (EV3' : d_events (db s3) = d_events (db st)) by (rewrite EV3; unfold db; rewrite B1; cbn; exact EE).
  (* the state after the flag is cleared *)
  assert (Clr : may (fun _ s => m_prog s = false /\ m_cur s = n_tpl n /\ m_trace s = m_trace st /\ calm s /\ below (n_tpl n) s /\
                       em_get (d_events (db s)) (n_event n) <> None)
     (if is_notify_signal (e_type e) then obind (db_call w rec (lift_db (fun d => clear_signal d (n_event n))) s3) (fun _ s => ODone tt s) else ODone tt s3)).
  { destruct I3 as (K2 & K3 & K4 & K5 & dd & pp & E1 & E2 & E3). unfold db in E1, E2, E3. rewrite B1 in E1, E2, E3. cbn [s_db s_time] in E1, E2, E3.
    destruct (is_notify_signal (e_type e)) eqn:SG.
    - eapply may_bind with (Q1 := fun _ s => m_prog s = false /\ m_cur s = n_tpl n /\ m_trace s = m_trace st /\ calm s /\ below (n_tpl n) s /\
                       em_get (d_events (db s)) (n_event n) <> None); [|auto].
      unfold db_call. pose proof (raise_silent rec TPL_HIGH_LEVEL s3) as R. destruct (do_raise _ _ _ _) as [prev s4|s4|]; cbn [obind]; [|exact I|exact I].
      destruct R as (-> & C4 & _ & _ & S4). destruct S4 as (M1 & M2 & M3 & M4 & M5). unfold lift_db at 1.
      destruct (clear_signal (s_db (m_sys s4)) (n_event n)) as [cr d4] eqn:CL.
      assert (PD : d_pending d4 = pp /\ d4 = set_pending (snd (clear_signal d' (n_event n))) pp /\ d_pending (snd (clear_signal d' (n_event n))) = d_pending d' /\ d_events d4 = d_events (snd (clear_signal d' (n_event n)))).
      { rewrite M1, E3 in CL. cbn [s_db] in CL. unfold clear_signal in CL |- *. cbn [set_pending d_events] in CL. rewrite EE, Ge in *. injection CL as <- <-. cbn. auto. }
      destruct PD as (PD & PD2 & PD3 & PD4).
      assert (GT : em_get (d_events d4) (n_event n) <> None).
      { rewrite PD4. unfold clear_signal. rewrite EE, Ge. cbn [snd set_events d_events]. rewrite get_update by reflexivity. rewrite N.eqb_refl, Ge. discriminate. }
      assert (FDD : Forall (fun m => em_get (d_events (snd (clear_signal d' (n_event n)))) (n_event m) = None) dd).
      { eapply Forall_impl; [|exact E2]. cbn beta. intros m Hm. unfold clear_signal. rewrite EE, Ge. cbn [snd set_events d_events]. rewrite get_update by reflexivity.
        rewrite EE in Hm. destruct (N.eqb_spec (n_event m) (n_event n)) as [En|]; [rewrite En in Hm; congruence|exact Hm]. }
      assert (I4 : ev_inv d4).
      { rewrite PD2. apply inv_set_pending; [exact ID|..].
        - apply (sorted_suffix nb dd). rewrite <- E1, <- PD3. apply (iv_psorted _ ID).
        - intros m Hm. rewrite PD3, E1. apply in_or_app. auto.
        - intros x Hx Sx. rewrite PD3, E1, cnt_app, (cnt_dead _ dd x (iv_sorted _ ID) FDD Hx). reflexivity. }
      set (s5 := set_sys s4 (MkSys d4 (s_time (m_sys s4)))).
      assert (G5 : calm s5).
      { split; [exact I4|]. destruct G as [_ M]. unfold minv, held in *. cbn. rewrite M3, M4, K3, K4, B3, B4. exact M. }
      assert (BL5 : below (n_tpl n) s5).
      { intros m Hm. unfold db in Hm. cbn in Hm. rewrite PD in Hm. apply BL. unfold db. rewrite B1. cbn. rewrite E1. apply in_or_app. auto. }
      eapply may_bind; [apply gives_may; apply (restore_idle f (m_cur s3) s5)|].
      + cbn. congruence.
      + unfold s5. cbn. lia.
      + unfold s5. cbn. lia.
      + intros _. rewrite C3. exact BL5.
      + cbn beta. intros [] s6 (C6 & I6). cbn [may]. destruct (idle_events _ _ I6) as (EV6 & _).
        split; [destruct I6 as (X & _); rewrite X; cbn; congruence|]. split; [congruence|].
        split; [destruct I6 as (_ & _ & _ & X & _); rewrite X; cbn; congruence|]. split; [eapply idle_calm; eauto|].
        split; [eapply idle_below; eauto|]. rewrite EV6. unfold s5, db. cbn. exact GT.
    - cbn [may]. split; [congruence|]. split; [exact C3|]. split; [congruence|]. split; [|split; [exact BL3|rewrite EV3', Ge; discriminate]].
      split.
      + eapply idle_inv with (st := s2); [|unfold db; rewrite B1; cbn; exact ID]. unfold idle. unfold db. rewrite B1. cbn. split; [congruence|]. split; [congruence|].
        split; [congruence|]. split; [congruence|]. exists dd, pp. auto.
      + destruct G as [_ M]. unfold minv, held in *. rewrite K3, K4, B3, B4. exact M. }
  eapply may_bind; [exact Clr|]. cbn beta. intros [] s4 (P4 & C4 & T4 & G4 & B4' & L4). rewrite poll_silent. cbn [obind].
  set (al := match em_get _ _ with Some _ => true | None => false end). assert (AL : al = true).
  { unfold al. cbn. unfold db in L4. destruct (em_get (d_events (s_db (m_sys s4))) (n_event n)); [reflexivity|congruence]. }
  set (s5 := add_trace (bump_clock s4) _). assert (G5 : calm s5) by exact G4. assert (P5 : m_prog s5 = false) by exact P4.
  assert (Q5 : quiet s5) by (right; unfold s5; cbn; rewrite C4; exact B4').
  assert (T5 : talive st s5).
  { exists [TRun n (m_cur (bump_clock s4)) new al (m_guards (bump_clock s4))]. unfold s5. cbn. rewrite T4. split; [reflexivity|]. constructor; [exact AL|constructor]. }
  assert (Last : forall s, calm s -> m_prog s = false -> talive st s -> may (fun _ st' => spost (CLoop new) st st') (rec (CLoop new) s)).
  { intros s Gs Ps Ts. eapply may_mono; [apply IH; [exact Gs|exact Ps|exact I]|]. cbn beta. intros [] s' (T' & B'). split; [eapply talive_trans; eauto|exact B']. }
  destruct (n_fn n).
  - eapply may_bind; [apply rec_all; [exact G5|exact P5|exact Q5]|]. cbn beta. intros [] s6 (F6 & P6 & _ & T6 & _). apply Last; [apply (fr_good _ _ F6)|exact P6|eapply talive_trans; eauto].
  - cbn [obind]. apply Last; assumption.
Qed.
End Step.

Theorem exec_silent fuel : forall c st, calm st -> m_prog st = false -> spre c st -> may (fun _ st' => spost c st st') (exec w fuel c st).
Proof.
  induction fuel as [|f IH]; intros c st G P S; cbn [exec]; [exact I|]. destruct c.
  - apply restore_s; assumption.
  - apply loop_s; assumption.
  - apply irq_s; assumption.
  - apply run_s; assumption.
Qed.
End Silent.
