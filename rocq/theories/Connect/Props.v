(** The theorems about ConnectController (C40) and DisconnectController (C54). *)
From Coq Require Import Sorted Permutation.
From Verif Require Import Base.Prelude Base.Omap Protocol.Model Protocol.Spec Protocol.Proofs Protocol.Usage Protocol.Services
  Protocol.SvcProofs Connect.Model Connect.Spec Connect.Proofs Connect.Sources Connect.Main Connect.Stop.
Local Open Scope N_scope.

(** ** C40: connecting one controller *)

Lemma live_validate s h : reached s -> (validate (c_db s) h = Ok tt <-> live (past s) h).
Proof.
  intros H. unfold validate, om_mem, past, c_db. rewrite <- (hist_live _ _ h H).
  destruct (om_get (p_handles (snd (c_ps s))) h); split; congruence.
Qed.

(** The remaining device path starts with an end node. *)
Definition at_end (env : cenv) (s : cst) (dp : option N) : Prop := exists p, dp = Some p /\ ce_end env s p = true.

(** For every behaviour of the drivers: after the override protocols have been asked, the drivers' Supported and
    Start functions are called as [asks] says - every candidate in order, a start exactly on a yes, again until all
    that were not started decline - and the result is success exactly when a Start succeeded or the remaining path
    is the end node. *)
Theorem C40_asks_and_starts : forall fuel env s c drivers dp st s',
  reached s -> live (past s) c -> connect_single fuel env s c drivers dp = (st, s') -> st <> Panicked -> st <> Hung ->
  reached s' /\ exists overrides cands calls,
    c_ev s' = c_ev s ++ overrides ++ calls /\ Forall (fun e => ~ driver_call e) overrides /\
    asks c (or_null dp) cands calls /\
    ((st = Success /\ (Exists start_ok calls \/ at_end env s' dp)) \/
     (st = Failed NotFound /\ ~ Exists start_ok calls /\ ~ at_end env s' dp)).
Proof.
  intros fuel env s c drivers dp st s' H Hl E Hp Hh. pose proof (connect_single_inv env reached (reached_closed env) _ _ _ _ _ _ _ H E) as R.
  split; [exact R|]. unfold connect_single in E. rewrite (proj2 (live_validate s c H) Hl) in E.
  destruct (candidates fuel env s c drivers) as [x s1] eqn:K. apply candidates_any in K. destruct K as [(e1 & V1 & F1) R1].
  destruct x as [cands| |]; try (injection E as <- <-; congruence).
  destruct (passes fuel env s1 c (or_null dp) cands false) as [y s2] eqn:P. apply passes_spec in P.
  destruct y as [one| |]; try (injection E as <- <-; congruence). destruct P as (e2 & V2 & A & O & R2).
  exists e1, cands, e2.
  assert (s2 = s') by (destruct one; [|destruct dp as [p|]; [destruct (ce_end env s2 p)|]]; injection E as _ <-; reflexivity). subst s2.
  split; [rewrite V2, V1, <- app_assoc; reflexivity|].
  split; [eapply Forall_impl; [|exact F1]; intros [] X; cbn in *; tauto|]. split; [exact A|].
  destruct one.
  - injection E as <-. left. split; [reflexivity|]. left. destruct (proj1 O eq_refl) as [X|X]; [discriminate X|exact X].
  - assert (No : ~ Exists start_ok e2) by (intros X; assert (Y : false = true) by (apply O; right; exact X); discriminate Y).
    unfold at_end. destruct dp as [p|].
    + destruct (ce_end env s' p) eqn:Ee; injection E as <-.
      * left. split; [reflexivity|]. right. eauto.
      * right. split; [reflexivity|]. split; [exact No|]. intros (q & X & Y). injection X as <-. congruence.
    + injection E as <-. right. split; [reflexivity|]. split; [exact No|]. intros (q & X & _). discriminate X.
Qed.

(** A handle that is not live is refused and no driver is called. *)
Theorem C40_bad_handle : forall fuel env s c drivers dp,
  reached s -> ~ live (past s) c -> connect_single fuel env s c drivers dp = (Failed InvalidParameter, s).
Proof.
  intros fuel env s c drivers dp H Hl. unfold connect_single. unfold validate, om_mem.
  pose proof (hist_live _ _ c H) as L. unfold c_db. destruct (om_get (p_handles (snd (c_ps s))) c); [|reflexivity].
  exfalso. apply Hl, L. discriminate.
Qed.

(** The order of the candidates.  When the override protocols leave the database alone, the drivers asked first are,
    in this order: the drivers the caller named, the answers of the platform override protocol, the family override
    drivers (highest version first), the answers of the controller's bus specific override protocol, and all driver
    bindings (highest version first), each without those an earlier source offered. *)
Theorem C40_priority_order : forall fuel env s c drivers dp st s',
  quiet_overrides env -> sorts env ->
  reached s -> live (past s) c -> connect_single fuel env s c drivers dp = (st, s') -> st <> Panicked -> st <> Hung ->
  exists e2 l2 e3 l3 e4 l4 l5 version calls rest,
    platform_source (past s) c e2 l2 /\ family_source (past s) e3 l3 /\ bus_source (past s) c e4 l4 /\
    search_source version (past s) l5 /\ (exists s4, c_ps s4 = c_ps s /\ version = ce_version env s4) /\
    c_ev s' = c_ev s ++ (e2 ++ e3 ++ e4) ++ calls ++ rest /\
    flat_map asked calls = by_priority [] [binds (past s) drivers; l2; l3; l4; l5] /\
    asks c (or_null dp) (by_priority [] [binds (past s) drivers; l2; l3; l4; l5]) (calls ++ rest).
Proof.
  intros fuel env s c drivers dp st s' Q So H Hl E Hp Hh. unfold connect_single in E.
  rewrite (proj2 (live_validate s c H) Hl) in E.
  destruct (candidates fuel env s c drivers) as [x s1] eqn:K.
  destruct x as [cands| |]; try (injection E as <- <-; congruence).
  apply candidates_quiet in K; auto. destruct K as (e2 & l2 & e3 & l3 & e4 & l4 & l5 & V1 & P1 & S2 & S3 & S4 & S5 & Hc).
  destruct (passes fuel env s1 c (or_null dp) cands false) as [y s2] eqn:P. apply passes_spec in P.
  destruct y as [one| |]; try (injection E as <- <-; congruence). destruct P as (ev & V2 & A & O & R2).
  assert (s2 = s') by (destruct one; [|destruct dp as [p|]; [destruct (ce_end env s2 p)|]]; injection E as _ <-; reflexivity). subst s2.
  subst cands. destruct (asks_first _ _ _ _ A) as (pre & post & -> & F).
  exists e2, l2, e3, l3, e4, l4, l5, (ce_version env s1), pre, post.
  split; [exact S2|]. split; [exact S3|]. split; [exact S4|]. split; [exact S5|]. split; [exists s1; auto|].
  split; [rewrite V2, V1, <- !app_assoc; reflexivity|]. auto.
Qed.

(** Consequences of [asks], for every list of candidates and all driver calls. *)

(** A binding occurring once among the candidates is started at most once. *)
Theorem C40_started_once : forall c dp cands calls,
  asks c dp cands calls -> NoDup cands -> NoDup (flat_map started calls).
Proof. exact asks_once. Qed.

(** All calls are Supported or Start calls for this controller and path by a candidate; a Start comes right after the
    Supported call of the same binding that said yes. *)
Theorem C40_start_after_yes : forall c dp cands calls,
  asks c dp cands calls -> forall pre e post, calls = pre ++ e :: post ->
  match e with
  | ESupported b c' dp' _ => In b cands /\ c' = c /\ dp' = dp
  | EStart b c' dp' _ => In b cands /\ c' = c /\ dp' = dp /\ exists pre', pre = pre' ++ [ESupported b c dp true]
  | _ => False
  end.
Proof. exact asks_shape. Qed.

(** When the call returns every candidate has been started or has declined after the last start. *)
Theorem C40_all_others_declined : forall c dp cands calls,
  asks c dp cands calls ->
  exists pre rest, calls = pre ++ map (fun b => ESupported b c dp false) rest /\
    forall b, In b cands <-> In b (flat_map started calls) \/ In b rest.
Proof. exact asks_last. Qed.

(** The candidates are free of duplicates when the caller and the override protocols name no driver twice and no
    two handles share a binding interface. *)
Lemma binds_nodup tr hs : (forall h h' i, installed tr h DRIVER_BINDING = Some i -> installed tr h' DRIVER_BINDING = Some i -> h = h') ->
  NoDup hs -> NoDup (binds tr hs).
Proof.
  intros U. induction 1 as [|h t Hh Hn IH]; cbn [binds flat_map]; [constructor|]. fold (binds tr t).
  destruct (installed tr h DRIVER_BINDING) as [i|] eqn:E; [|exact IH]. cbn [app]. constructor; [|exact IH].
  intros X. apply in_flat_map in X. destruct X as (h' & Hi & X). destruct (installed tr h' DRIVER_BINDING) as [j|] eqn:E'; [|destruct X].
  destruct X as [->|[]]. apply Hh. rewrite (U _ _ _ E E'). exact Hi.
Qed.

Definition platform_answer (e : cev) : list N := match e with EPlatform _ _ (Some a) => [a] | _ => [] end.
Definition bus_answer (e : cev) : list N := match e with EBus _ _ (Some a) => [a] | _ => [] end.

Lemma answers_platform p c ans : flat_map platform_answer (map (fun a => EPlatform p c (Some a)) ans ++ [EPlatform p c None]) = ans.
Proof. rewrite flat_map_app. cbn. rewrite app_nil_r. induction ans; cbn; congruence. Qed.
Lemma answers_bus p c ans : flat_map bus_answer (map (fun a => EBus p c (Some a)) ans ++ [EBus p c None]) = ans.
Proof. rewrite flat_map_app. cbn. rewrite app_nil_r. induction ans; cbn; congruence. Qed.
Lemma nodup_app {A} (a b : list A) : NoDup (a ++ b) -> NoDup a /\ NoDup b.
Proof.
  induction a as [|x t IH]; cbn [app]; intros H; [split; [constructor|exact H]|]. inversion H as [|? ? Hx Ht]; subst.
  destruct (IH Ht) as [A1 A2]. split; [|exact A2]. constructor; [|exact A1]. intros X. apply Hx, in_app_iff. left. exact X.
Qed.

Theorem C40_no_duplicate_start : forall fuel env s c drivers dp st s',
  quiet_overrides env -> sorts env ->
  reached s -> live (past s) c -> connect_single fuel env s c drivers dp = (st, s') -> st <> Panicked -> st <> Hung ->
  NoDup drivers ->
  (forall h h' i, installed (past s) h DRIVER_BINDING = Some i -> installed (past s) h' DRIVER_BINDING = Some i -> h = h') ->
  (forall new, c_ev s' = c_ev s ++ new -> NoDup (flat_map platform_answer new) /\ NoDup (flat_map bus_answer new)) ->
  exists calls pre, c_ev s' = c_ev s ++ pre ++ calls /\ Forall (fun e => ~ driver_call e) pre /\ NoDup (flat_map started calls).
Proof.
  intros fuel env s c drivers dp st s' Q So H Hl E Hp Hh Nd U Na.
  destruct (C40_priority_order fuel env s c drivers dp st s' Q So H Hl E Hp Hh)
    as (e2 & l2 & e3 & l3 & e4 & l4 & l5 & ver & calls & rest & S2 & S3 & S4 & S5 & _ & V & _ & A).
  destruct (Na _ V) as [N2 N4]. rewrite !flat_map_app in N2, N4.
  apply nodup_app in N2, N4. destruct N2 as [N2 _], N4 as [N4 _]. apply nodup_app in N2, N4. destruct N2 as [N2 _], N4 as [_ N4].
  apply nodup_app in N4. destruct N4 as [_ N4].
  exists (calls ++ rest), (e2 ++ e3 ++ e4). split; [exact V|]. split.
  - rewrite !Forall_app. repeat split.
    + destruct S2 as [(_ & -> & _)|(h & p & ans & _ & -> & _)]; [constructor|]. apply Forall_app. split; [|repeat constructor; cbn; tauto].
      rewrite Forall_map. apply Forall_forall. cbn. tauto.
    + destruct S3 as (all & fam & rk & _ & _ & _ & -> & _). rewrite Forall_map. apply Forall_forall. cbn. tauto.
    + destruct S4 as [(_ & -> & _)|(p & ans & _ & -> & _)]; [constructor|]. apply Forall_app. split; [|repeat constructor; cbn; tauto].
      rewrite Forall_map. apply Forall_forall. cbn. tauto.
  - eapply asks_once; [exact A|]. apply by_priority_nodup. repeat constructor.
    + apply binds_nodup; assumption.
    + destruct S2 as [(_ & _ & ->)|(h & p & ans & _ & He & ->)]; [constructor|]. apply binds_nodup; [exact U|].
      rewrite He, answers_platform in N2. exact N2.
    + destruct S3 as (all & fam & rk & (Na' & _ & _) & Hf & _ & _ & Hs & Hr & ->). apply binds_nodup; [exact U|].
      assert (Nf : NoDup (map (fun x => fst (fst x)) fam)) by (rewrite Hf; apply NoDup_filter; exact Na').
      clear - Nf Hs Hr.
      assert (Hu : forall v v' h, In (v, h) rk -> In (v', h) rk -> v = v').
      { intros v v' h I1 I2. apply Hr in I1, I2. destruct I1 as (b1 & p1 & a1 & -> & _). destruct I2 as (b2 & p2 & a2 & E & _).
        assert (K : forall l v v' p p', NoDup (map (fun x : N * N * N => fst (fst x)) l) -> In (h, p, v) l -> In (h, p', v') l -> v = v').
        { clear. induction l as [|[[h0 p0] v0] t IH]; intros v v' p p' Hn I1 I2; [destruct I1|]. cbn [map fst] in Hn. inversion Hn as [|? ? Ha Hb]; subst.
          assert (X : forall q w, In (h, q, w) t -> In h (map (fun x : N * N * N => fst (fst x)) t)).
          { intros q w Hi. apply (in_map (fun x : N * N * N => fst (fst x))) in Hi. exact Hi. }
          destruct I1 as [I1|I1], I2 as [I2|I2].
          - congruence.
          - injection I1 as -> -> ->. exfalso. apply Ha. eapply X; exact I2.
          - injection I2 as -> -> ->. exfalso. apply Ha. eapply X; exact I1.
          - eapply IH; eauto. }
        eapply K; [exact Nf| |].
        - apply in_app_iff. right. left. reflexivity.
        - rewrite E. apply in_app_iff. right. left. reflexivity. }
      clear - Hs Hu. induction Hs as [|[v h] t Hs IH Hf]; cbn [map snd]; [constructor|]. constructor.
      * intros X. apply in_map_iff in X. destruct X as ([v' h'] & Eh & Hi). cbn [snd] in Eh. subst h'.
        assert (v = v') by (apply (Hu v v' h); [left; reflexivity|right; exact Hi]). subst v'.
        rewrite Forall_forall in Hf. specialize (Hf _ Hi). cbn [fst] in Hf. lia.
      * apply IH. intros v1 v2 h1 I1 I2. apply (Hu v1 v2 h1); right; assumption.
    + destruct S4 as [(_ & _ & ->)|(p & ans & _ & He & ->)]; [constructor|]. apply binds_nodup; [exact U|].
      rewrite He, answers_bus in N4. exact N4.
    + destruct S5 as (all & (Na' & _ & _) & P & _). eapply Permutation_NoDup; [apply Permutation_sym; exact P|]. apply binds_nodup; assumption.
Qed.

(** ** C40: security *)

(** When the controller has a well-formed device path and a security protocol is installed, its verdict on that path
    (extended by the remaining path, unless the connect is recursive) is obtained first; on a refusal the call
    returns the refusal and no driver is called at all, on this controller or its children. *)
Theorem C40_security : forall fuel env depth s c drivers dp (recursive : bool) path sec bytes e,
  reached s -> installed (past s) c DEVICE_PATH = Some path ->
  (exists h, installed (past s) h SECURITY2 = Some sec) ->
  (forall h sec', installed (past s) h SECURITY2 = Some sec' -> sec' = sec) ->
  ce_path env s path (if recursive then None else dp) = Some bytes ->
  fst (ce_auth env s sec bytes) = Some e ->
  fst (connect fuel env depth s c drivers dp recursive) = Failed e /\
  c_ev (snd (connect fuel env depth s c drivers dp recursive)) = c_ev s ++ [EAuth c bytes (Some e)].
Proof.
  intros fuel env depth s c drivers dp recursive path sec bytes e H Hd [hs Hs] Hu Hp Ha.
  assert (A : authenticate env s c dp recursive = (Some e, log (perform s (snd (ce_auth env s sec bytes))) (EAuth c bytes (Some e)))).
  { unfold authenticate. pose proof (iface_spec s c DEVICE_PATH H) as I1. pose proof (locate_protocol_spec s SECURITY2 H) as I2.
    destruct (get_interface (c_db s) c DEVICE_PATH) as [| |p| | | | | | |x| |]; try contradiction; [|congruence].
    assert (p = path) by congruence. subst p.
    destruct (locate_protocol (c_db s) SECURITY2) as [| |q| | | | | | |x| |]; try contradiction;
      [|exfalso; specialize (I2 hs); congruence].
    destruct I2 as [h2 I2]. assert (q = sec) by (eapply Hu; exact I2). subst q. rewrite Hp.
    destruct (ce_auth env s sec bytes) as [v ops]. cbn [fst snd] in *. subst v. reflexivity. }
  rewrite connect_unfold, A. split; reflexivity.
Qed.

(** Otherwise a connect that is not recursive is: the verdict, if one is asked for, then the connect of the
    controller. *)
Theorem C40_one_controller : forall fuel env depth s c drivers dp st s',
  reached s -> connect fuel env depth s c drivers dp false = (st, s') ->
  (exists bytes e, st = Failed e /\ c_ev s' = c_ev s ++ [EAuth c bytes (Some e)]) \/
  (exists s1, reached s1 /\ connect_single fuel env s1 c drivers dp = (st, s') /\
     (s1 = s \/ exists bytes, c_ev s1 = c_ev s ++ [EAuth c bytes None])).
Proof.
  intros fuel env depth s c drivers dp st s' H E. rewrite connect_unfold in E.
  destruct (authenticate env s c dp false) as [v s1] eqn:A.
  pose proof (authenticate_inv env reached (reached_closed env) _ _ _ _ _ _ H A) as R.
  assert (Hs : (s1 = s /\ v = None) \/ exists bytes, c_ev s1 = c_ev s ++ [EAuth c bytes v]).
  { unfold authenticate in A. destruct (get_interface _ _ _); try (injection A as <- <-; auto).
    destruct (locate_protocol _ _); try (injection A as <- <-; auto).
    destruct (ce_path _ _ _ _) as [bytes|]; try (injection A as <- <-; auto).
    destruct (ce_auth _ _ _ _) as [w ops]. injection A as <- <-. right. exists bytes. reflexivity. }
  destruct v as [e|].
  - injection E as <- <-. left. destruct Hs as [[_ X]|[bytes X]]; [discriminate X|]. eauto.
  - right. exists s1. split; [exact R|]. split.
    + destruct (connect_single fuel env s1 c drivers dp) as [[| | |] s2]; exact E.
    + destruct Hs as [[X _]|X]; auto.
Qed.

(** ** C40: children *)

(** Connecting a list of handles one after the other, recursively, whatever each returns. *)
Inductive visits (fuel : nat) (env : cenv) (depth : nat) : list N -> cst -> cst -> Prop :=
| visits_nil s : visits fuel env depth [] s s
| visits_cons h t s r s1 s2 : connect fuel env depth s h [] None true = (r, s1) ->
    visits fuel env depth t s1 s2 -> visits fuel env depth (h :: t) s s2.

(** A recursive connect that returns, and was not refused by security, has the controller's own result, and connects
    every child the controller has after it was connected, in order of the handle values. *)
Theorem C40_children : forall fuel env depth s c drivers dp st s' s1,
  reached s -> authenticate env s c dp true = (None, s1) ->
  connect fuel env depth s c drivers dp true = (st, s') -> st <> Panicked -> st <> Hung ->
  exists s2 kids depth', connect_single fuel env s1 c drivers dp = (st, s2) /\
    StronglySorted N.lt kids /\ (forall k, In k kids <-> child_controller (past s2) c k) /\
    visits fuel env depth' kids s2 s'.
Proof.
  intros fuel env depth s c drivers dp st s' s1 H A E Hp Hh. rewrite connect_unfold, A in E.
  pose proof (authenticate_inv env reached (reached_closed env) _ _ _ _ _ _ H A) as R.
  destruct (connect_single fuel env s1 c drivers dp) as [st2 s2] eqn:Sg.
  pose proof (connect_single_inv env reached (reached_closed env) _ _ _ _ _ _ _ R Sg) as R2.
  destruct (child_handles_spec s2 c R2) as (kids & Ek & Ks & Ki).
  assert (V : forall (go : cst -> N -> pstatus * cst) k l x, (forall s h, go s h = connect fuel env k s h [] None true) ->
     each go st2 l x = (st, s') -> st = st2 /\ visits fuel env k l x s').
  { intros go k. induction l as [|h t IH]; intros x Hg Ex; cbn [each] in Ex.
    - injection Ex as <- <-. split; [reflexivity|constructor].
    - rewrite Hg in Ex. destruct (connect fuel env k x h [] None true) as [r x1] eqn:Er.
      destruct r; try (injection Ex as <- <-; congruence); destruct (IH x1 Hg Ex) as [-> V]; (split; [reflexivity|]); econstructor; eauto. }
  assert (W : st2 <> Panicked -> st2 <> Hung -> exists k, depth = S k /\ each (fun s h => connect fuel env k s h [] None true) st2 kids s2 = (st, s')).
  { intros H1 H2. destruct st2; try congruence; (destruct depth as [|k]; [injection E as <- <-; congruence|]); rewrite Ek in E; exists k; auto. }
  assert (N1 : st2 <> Panicked) by (intros ->; injection E as <- _; congruence).
  assert (N2 : st2 <> Hung) by (intros ->; injection E as <- _; congruence).
  destruct (W N1 N2) as (k & -> & Ee). destruct (V _ k kids s2 (fun _ _ => eq_refl) Ee) as [-> Vi].
  exists s2, kids, k. auto.
Qed.

(** ** C40: termination *)

(** The connect of a controller returns, whatever Supported and Start do, provided each override protocol answers at
    most [n] times in a row. *)
Theorem C40_terminates : forall env n s c drivers dp,
  answers_at_most env n ->
  exists f st s', st <> Hung /\ forall fuel, (f <= fuel)%nat -> connect_single fuel env s c drivers dp = (st, s').
Proof.
  intros env n s c drivers dp A. destruct (connect_single_ends env n s c drivers dp A) as (f & [st s'] & Hr & F). exists f, st, s'. auto.
Qed.

(** Drivers open children only downwards in some ranking of the handles. *)
Definition opens_down (rank : N -> nat) (ops : list pop) : Prop :=
  forall h g a k, In (OOpen h g a (Some k) 0x8) ops -> (rank k < rank h)%nat.

Record drivers_open_down (rank : N -> nat) (env : cenv) : Prop := MkDown {
  dn_platform : forall s p c prev, opens_down rank (snd (ce_platform env s p c prev));
  dn_family : forall s p, opens_down rank (snd (ce_family env s p));
  dn_bus : forall s p prev, opens_down rank (snd (ce_bus env s p prev));
  dn_auth : forall s p b, opens_down rank (snd (ce_auth env s p b));
  dn_supported : forall s b c dp, opens_down rank (snd (ce_supported env s b c dp));
  dn_start : forall s b c dp, opens_down rank (snd (ce_start env s b c dp));
  dn_stop : forall s b c k, opens_down rank (snd (ce_stop env s b c k)) }.

Lemma opens_call o r t h g a k : opens ((o, r) :: t) h g a (Some k) 0x8 <> 0 ->
  opens t h g a (Some k) 0x8 <> 0 \/ o = OOpen h g (Some a) (Some k) 0x8.
Proof.
  intros X. cbn [opens] in X. destruct o; try (left; exact X).
  - destruct r; try (left; exact X). destruct ((h =? h1) && (g =? g0)); [lia|left; exact X].
  - destruct r; try (left; exact X). destruct ((h =? h0) && (g =? g0)); [lia|left; exact X].
  - destruct agent as [a'|]; try (left; exact X). destruct r; try (left; exact X).
    destruct ((h =? h0) && (g =? g0) && (a =? a') && oeqb (Some k) ctrl && (8 =? attr)) eqn:E; [|left; exact X].
    right. repeat (apply andb_true_iff in E; destruct E as [E ?]). apply oeqb_eq in H0.
    apply N.eqb_eq in E, H, H1, H2. subst. reflexivity.
  - destruct agent as [a'|]; try (left; exact X). destruct r; try (left; exact X).
    destruct ((h =? h0) && (g =? g0) && (a =? a') && oeqb (Some k) ctrl && _); [lia|left; exact X].
Qed.

Lemma calls_down rank ops : opens_down rank ops -> forall p : pstate,
  (forall c k, child_controller (fst p) c k -> (rank k < rank c)%nat) ->
  forall c k, child_controller (fst (calls p ops)) c k -> (rank k < rank c)%nat.
Proof.
  induction ops as [|o t IH]; intros D p Hp; cbn [calls]; [exact Hp|]. apply IH.
  - intros h g a k Hi. apply (D h g a k). right. exact Hi.
  - unfold call. destruct (pstep (snd p) o) as [r d]. cbn [snd fst]. intros c k (drv & g & Hh).
    unfold held in Hh. apply opens_call in Hh. destruct Hh as [Hh| ->]; [apply Hp; exists drv, g; exact Hh|].
    apply (D c g (Some drv) k). left. reflexivity.
Qed.

Lemma down_closed rank env : drivers_open_down rank env -> closed env (ranked rank).
Proof.
  intros []. assert (P : forall s ops, opens_down rank ops -> ranked rank s -> ranked rank (perform s ops)).
  { intros s ops D [R K]. split; [apply perform_reached; exact R|]. intros c k. unfold past, perform. cbn [c_ps].
    apply calls_down; assumption. }
  split; intros; try (apply P; auto; fail). destruct H as [R K]. split; assumption.
Qed.

(** A recursive connect returns when, besides, the children of every handle rank below it. *)
Theorem C40_recursion_terminates : forall env n rank s c drivers dp recursive,
  answers_at_most env n -> drivers_open_down rank env -> reached s ->
  (forall h k, child_controller (past s) h k -> (rank k < rank h)%nat) ->
  exists f d st s', st <> Hung /\
    forall fuel depth, (f <= fuel)%nat -> (d <= depth)%nat -> connect fuel env depth s c drivers dp recursive = (st, s').
Proof.
  intros env n rank s c drivers dp recursive A D H Hk.
  destruct (connect_ends env n rank A (down_closed rank env D) (S (rank c)) c s drivers dp recursive (Nat.lt_succ_diag_r _) (conj H Hk))
    as (f & d & [st s'] & Hr & _ & F).
  exists f, d, st, s'. auto.
Qed.

(** ** C54: disconnecting *)

(** The calls DisconnectController makes, and its result. *)
Theorem C54_disconnect : forall env s c driver child st s',
  reached s -> disconnect env s c driver child = (st, s') ->
  (~ (live (past s) c /\ olive (past s) driver /\ olive (past s) child) /\ st = Failed InvalidParameter /\ s' = s) \/
  (live (past s) c /\ olive (past s) driver /\ olive (past s) child /\
   exists drvs done rest evs counts,
     NoDup drvs /\ (forall d, In d drvs <-> manages (past s) d c /\ (forall x, driver = Some x -> d = x)) /\
     drvs = done ++ rest /\ c_ev s' = c_ev s ++ evs /\ turns c child (past s) done evs counts (past s') /\
     ((rest = [] /\ st = (if match drvs with [] => true | _ => existsb (fun b => b) counts end then Success else Failed NotFound)) \/
      (st = Failed InvalidParameter /\ exists drv t, rest = drv :: t /\ manages (past s') drv c /\ installed (past s') drv DRIVER_BINDING = None))).
Proof. exact disconnect_spec. Qed.

(** Only drivers that manage the controller, when the call is made and when their turn comes, are told to stop, and
    only with regard to this controller and children they created on it; with a child named, no other child. *)
Theorem C54_only_managers : forall env s c driver child st s',
  reached s -> disconnect env s c driver child = (st, s') ->
  exists evs, c_ev s' = c_ev s ++ evs /\ forall e, In e evs ->
    exists drv b kids ok then_, e = EStop b c kids ok /\
      manages (past s) drv c /\ (forall x, driver = Some x -> drv = x) /\
      (exists later, past s' = later ++ then_) /\ manages then_ drv c /\ installed then_ drv DRIVER_BINDING = Some b /\
      (forall k, In k kids -> child_of_driver then_ drv c k) /\ (forall h, child = Some h -> kids = [] \/ kids = [h]).
Proof.
  intros env s c driver child st s' H E. apply disconnect_spec in E; [|exact H].
  destruct E as [(_ & _ & ->)|(_ & _ & _ & drvs & done & rest & evs & bs & _ & Hin & Hd & V & T & _)].
  - exists []. rewrite app_nil_r. split; [reflexivity|]. intros e [].
  - exists evs. split; [exact V|]. intros e He. destruct (turns_calls _ _ _ _ _ _ _ T e He) as (drv & b & kids & ok & u & v & A & B & C & D).
    assert (Hx : In drv drvs) by (rewrite Hd; apply in_app_iff; left; exact B). apply Hin in Hx. destruct Hx as [M X].
    exists drv, b, kids, ok, u. split; [exact A|]. split; [exact M|]. split; [exact X|]. split; [exists v; exact C|exact D].
Qed.

(** It never panics: an open BY_DRIVER always names its agent. *)
Theorem C54_no_panic : forall env s c driver child, reached s ->
  fst (disconnect env s c driver child) <> Panicked /\ fst (disconnect env s c driver child) <> Hung.
Proof.
  intros env s c driver child H. destruct (disconnect env s c driver child) as [st s'] eqn:E. apply disconnect_spec in E; [|exact H].
  cbn [fst]. destruct E as [(_ & -> & _)|(_ & _ & _ & drvs & done & rest & evs & bs & _ & _ & _ & _ & _ & [(_ & ->)|(-> & _)])];
    try (split; discriminate). destruct (match drvs with [] => true | _ => existsb (fun b => b) bs end); split; discriminate.
Qed.

(** ** Concrete cases and refutations *)
Fixpoint ins_desc (key : N -> N) (x : N) (l : list N) : list N :=
  match l with [] => [x] | y :: t => if key y <=? key x then x :: l else y :: ins_desc key x t end.
Definition sort_desc (key : N -> N) (l : list N) : list N := fold_right (ins_desc key) [] l.
Lemma ins_desc_perm key x l : Permutation (ins_desc key x l) (x :: l).
Proof.
  induction l as [|y t IH]; cbn [ins_desc]; [reflexivity|]. destruct (key y <=? key x); [reflexivity|].
  rewrite IH. apply perm_swap.
Qed.
Lemma ins_desc_sorted key x l : StronglySorted (fun a b => key b <= key a) l -> StronglySorted (fun a b => key b <= key a) (ins_desc key x l).
Proof.
  induction 1 as [|y t Hs IH Hf]; cbn [ins_desc]; [repeat constructor|]. destruct (key y <=? key x) eqn:E.
  - constructor; [constructor; assumption|]. constructor; [lia|]. eapply Forall_impl; [|exact Hf]. cbn. intros. lia.
  - constructor; [exact IH|]. apply Forall_forall. intros z Hz. apply (Permutation_in _ (ins_desc_perm key x t)) in Hz.
    destruct Hz as [<-|Hz]; [lia|]. rewrite Forall_forall in Hf. apply Hf. exact Hz.
Qed.
Lemma sort_desc_ok key l : Permutation (sort_desc key l) l /\ StronglySorted (fun a b => key b <= key a) (sort_desc key l).
Proof.
  induction l as [|x t [IH1 IH2]]; cbn [sort_desc fold_right]; [split; constructor|]. fold (sort_desc key t). split.
  - rewrite ins_desc_perm, IH1. reflexivity.
  - apply ins_desc_sorted. exact IH2.
Qed.

(** A driver 100 that is always willing and opens its controller, a driver 200 that is willing once 100 was started
    but fails; version 9 for driver 200. *)
Definition was_started (s : cst) (b : N) : bool :=
  existsb (fun e => match e with EStart b' _ _ _ => b' =? b | _ => false end) (c_ev s).
Definition toy : cenv := MkCE (fun _ b => if b =? 200 then 9 else 1) sort_desc
  (fun _ _ _ _ => (None, [])) (fun _ _ => (3, [])) (fun _ _ _ => (None, [])) (fun _ _ _ => Some [7]) (fun _ _ _ => (None, []))
  (fun s b _ _ => (if b =? 100 then true else was_started s 100, []))
  (fun s b c _ => (b =? 100, if b =? 100 then [OOpen c 77 (Some 2) (Some c) 0x10] else []))
  (fun _ _ _ _ => (true, [])) (fun _ _ => false).
Definition boot (ops : list pop) : cst := MkC [] (calls ([], pdb_new 0 5) ops).
Lemma boot_reached ops : reached (boot ops).
Proof. apply (calls_hist ops ([], pdb_new 0 5)). apply hist_new. Qed.
(** Handle 1 is the controller, 2 and 3 carry the bindings. *)
Definition toy_db : list pop := [OInstall None 77 5; OInstall None DRIVER_BINDING 100; OInstall None DRIVER_BINDING 200].

Lemma toy_sorts : sorts toy. Proof. intros key l. apply sort_desc_ok. Qed.
Lemma toy_quiet : quiet_overrides toy. Proof. repeat split. Qed.

Example C40_toy : let r := connect_single 5 toy (boot toy_db) 1 [] None in
  fst r = Success /\
  c_ev (snd r) = [ESupported 200 1 0 false; ESupported 100 1 0 true; EStart 100 1 0 true;
                  ESupported 200 1 0 true; EStart 200 1 0 false] /\
  live (past (boot toy_db)) 1 /\ manages (past (snd r)) 2 1.
Proof.
  split; [vm_compute; reflexivity|]. split; [vm_compute; reflexivity|]. split.
  - exists 77, 5. vm_compute. reflexivity.
  - exists 77, (Some 1), 0x10. split; [left; reflexivity|]. unfold held. vm_compute. discriminate.
Qed.

Example C40_toy_bounded : answers_at_most toy 0 /\ drivers_open_down (fun h => N.to_nat h) toy.
Proof.
  split; [split; reflexivity|]. split; try (intros; intros ? ? ? ? []).
  intros s b c dp h g a k Hi. cbn in Hi. destruct (b =? 100); [|destruct Hi]. destruct Hi as [Hi|[]]. discriminate Hi.
Qed.

Example C40_toy_unique : let s' := snd (connect_single 5 toy (boot toy_db) 1 [3] None) in
  fst (connect_single 5 toy (boot toy_db) 1 [3] None) = Success /\
  (forall new, c_ev s' = c_ev (boot toy_db) ++ new -> NoDup (flat_map platform_answer new) /\ NoDup (flat_map bus_answer new)) /\
  flat_map started (c_ev s') = [100; 200].
Proof.
  split; [vm_compute; reflexivity|]. split; [|vm_compute; reflexivity]. intros new E. cbn [boot c_ev app] in E. rewrite <- E.
  split; vm_compute; constructor.
Qed.

(** The claim fails when the caller names a driver twice: the source is not freed of duplicates of its own, so the
    driver is asked and started twice. *)
Theorem C40_named_twice_refuted : exists env s c drivers s',
  quiet_overrides env /\ sorts env /\ reached s /\ live (past s) c /\
  connect_single 5 env s c drivers None = (Success, s') /\
  c_ev s' = c_ev s ++ [ESupported 100 c 0 true; EStart 100 c 0 true; ESupported 100 c 0 true; EStart 100 c 0 true;
                       ESupported 200 c 0 true; EStart 200 c 0 false].
Proof.
  exists toy, (boot toy_db), 1, [2; 2]. eexists. split; [exact toy_quiet|]. split; [exact toy_sorts|].
  split; [apply boot_reached|]. split; [exists 77, 5; vm_compute; reflexivity|].
  split; vm_compute; reflexivity.
Qed.

(** The claim fails when the open information of two handles names each other as children: the recursion over the
    children never ends. *)
Definition cycle_db : list pop :=
  [OInstall None 77 5; OInstall None 77 6; OInstall None 78 7;
   OOpen 1 77 (Some 3) (Some 2) 0x8; OOpen 2 77 (Some 3) (Some 1) 0x8].
Theorem C40_child_cycle_refuted : exists env s c,
  reached s /\ live (past s) c /\ answers_at_most env 0 /\ quiet_overrides env /\
  forall fuel depth, fst (connect fuel env depth s c [] None true) = Hung.
Proof.
  exists toy, (boot cycle_db), 1. split; [apply boot_reached|]. split; [exists 77, 5; vm_compute; reflexivity|].
  split; [split; reflexivity|]. split; [exact toy_quiet|]. intros fuel.
  assert (A : forall c, c = 1 \/ c = 2 -> authenticate toy (boot cycle_db) c None true = (None, boot cycle_db)).
  { intros c [-> | ->]; vm_compute; reflexivity. }
  assert (S : forall f c, c = 1 \/ c = 2 -> connect_single (S f) toy (boot cycle_db) c [] None = (Failed NotFound, boot cycle_db)).
  { intros f c Hc. unfold connect_single.
    assert (V : validate (c_db (boot cycle_db)) c = Ok tt) by (destruct Hc as [-> | ->]; vm_compute; reflexivity). rewrite V.
    assert (K : candidates (S f) toy (boot cycle_db) c [] = (Got [], boot cycle_db)).
    { unfold candidates, platform_bindings, family_bindings, bus_bindings, all_bindings.
      assert (L1 : locate_protocol (c_db (boot cycle_db)) PLATFORM_OVERRIDE = OutErr NotFound) by (vm_compute; reflexivity).
      assert (L2 : locate_handles (c_db (boot cycle_db)) (Some DRIVER_BINDING) = OutErr NotFound) by (vm_compute; reflexivity).
      assert (L3 : get_interface (c_db (boot cycle_db)) c BUS_OVERRIDE = OutErr NotFound) by (destruct Hc as [-> | ->]; vm_compute; reflexivity).
      rewrite L1, L2, L3, L2. reflexivity. }
    rewrite K. reflexivity. }
  assert (K1 : child_handles (c_db (boot cycle_db)) 1 = OutHandles [2]) by (vm_compute; reflexivity).
  assert (K2 : child_handles (c_db (boot cycle_db)) 2 = OutHandles [1]) by (vm_compute; reflexivity).
  assert (G : forall depth c, c = 1 \/ c = 2 -> fst (connect fuel toy depth (boot cycle_db) c [] None true) = Hung).
  { induction depth as [|k IH]; intros c Hc; rewrite connect_unfold, (A c Hc).
    - destruct fuel as [|f].
      + unfold connect_single.
        assert (V : validate (c_db (boot cycle_db)) c = Ok tt) by (destruct Hc as [-> | ->]; vm_compute; reflexivity). rewrite V.
        assert (K : candidates 0 toy (boot cycle_db) c [] = (Got [], boot cycle_db)) by (destruct Hc as [-> | ->]; vm_compute; reflexivity).
        rewrite K. reflexivity.
      + rewrite (S f c Hc). reflexivity.
    - destruct fuel as [|f].
      + unfold connect_single.
        assert (V : validate (c_db (boot cycle_db)) c = Ok tt) by (destruct Hc as [-> | ->]; vm_compute; reflexivity). rewrite V.
        assert (K : candidates 0 toy (boot cycle_db) c [] = (Got [], boot cycle_db)) by (destruct Hc as [-> | ->]; vm_compute; reflexivity).
        rewrite K. reflexivity.
      + rewrite (S f c Hc).
        assert (Hk : exists c', (c' = 1 \/ c' = 2) /\ child_handles (c_db (boot cycle_db)) c = OutHandles [c'])
          by (destruct Hc as [-> | ->]; [exists 2|exists 1]; auto).
        destruct Hk as (c' & Hc' & Hk). rewrite Hk. cbn [each]. specialize (IH c' Hc').
        destruct (connect (Datatypes.S f) toy k (boot cycle_db) c' [] None true) as [r s']. cbn [fst] in IH. subst r. reflexivity. }
  intros depth. apply G. left. reflexivity.
Qed.

(** An override protocol installed with a null interface stops the machine. *)
Theorem C40_null_override_refuted : exists env s c, reached s /\ live (past s) c /\
  forall fuel, fst (connect_single fuel env s c [] None) = Panicked.
Proof.
  exists toy, (boot [OInstall None 77 5; OInstall None PLATFORM_OVERRIDE 0]), 1.
  split; [apply boot_reached|]. split; [exists 77, 5; vm_compute; reflexivity|]. intros fuel. unfold connect_single.
  set (s := boot _). assert (V : validate (c_db s) 1 = Ok tt) by (vm_compute; reflexivity). rewrite V.
  unfold candidates, platform_bindings. assert (L : locate_protocol (c_db s) PLATFORM_OVERRIDE = OutIface 0) by (vm_compute; reflexivity).
  rewrite L. reflexivity.
Qed.

(** Driver image 2 (binding 100) manages controller 1 and created the children 4 and 5 on it; driver image 3
    (binding 200) manages it through another protocol, without children. *)
Definition stop_db : list pop :=
  [OInstall None 77 5; OInstall None DRIVER_BINDING 100; OInstall None DRIVER_BINDING 200; OInstall None 78 8; OInstall None 78 9;
   OInstall (Some 1) 79 6;
   OOpen 1 77 (Some 2) (Some 1) 0x10; OOpen 1 79 (Some 3) (Some 1) 0x10;
   OOpen 1 77 (Some 2) (Some 4) 0x8; OOpen 1 77 (Some 2) (Some 5) 0x8].

Example C54_toy : let r := disconnect toy (boot stop_db) 1 None None in
  fst r = Success /\ c_ev (snd r) = [EStop 100 1 [4; 5] true; EStop 100 1 [] true; EStop 200 1 [] true] /\
  manages (past (boot stop_db)) 2 1 /\ manages (past (boot stop_db)) 3 1.
Proof.
  split; [vm_compute; reflexivity|]. split; [vm_compute; reflexivity|].
  split; [exists 77, (Some 1), 0x10|exists 79, (Some 1), 0x10]; (split; [left; reflexivity|]); unfold held; vm_compute; discriminate.
Qed.

(** Naming a child disconnects from the whole controller every driver that has no children on it: here driver 3 is
    stopped, though the named child 4 belongs to driver 2 alone. *)
Theorem C54_named_child_refuted : exists env s c child drv b s',
  reached s /\ (exists d, child_of_driver (past s) d c child) /\ (forall k, ~ child_of_driver (past s) drv c k) /\
  installed (past s) drv DRIVER_BINDING = Some b /\
  disconnect env s c None (Some child) = (Success, s') /\ In (EStop b c [] true) (c_ev s').
Proof.
  exists toy, (boot stop_db), 1, 4, 3, 200. eexists. split; [apply boot_reached|].
  split; [exists 2, 77; unfold held; vm_compute; discriminate|]. split.
  { intros k X. apply (kids_of_in (boot stop_db) 1 3 (boot_reached stop_db)) in X. vm_compute in X. exact X. }
  split; [vm_compute; reflexivity|]. split; [vm_compute; reflexivity|]. vm_compute. right. left. reflexivity.
Qed.

(** Naming a handle that is no child of the controller at all reports success although nothing was done. *)
Theorem C54_no_such_child_refuted : exists env s c driver child,
  reached s /\ (forall d, ~ child_of_driver (past s) d c child) /\
  disconnect env s c (Some driver) (Some child) = (Success, s) /\ manages (past s) driver c.
Proof.
  exists toy, (boot stop_db), 1, 2, 3. split; [apply boot_reached|]. split.
  { intros d X. destruct X as (g & X). apply (held_usage (boot stop_db) 1 g d (Some 3) 8 (boot_reached stop_db)) in X.
    destruct X as (it & u & G & Hu & _ & Hc & _).
    assert (Hs : child_handles (c_db (boot stop_db)) 1 = OutHandles [4; 5]) by (vm_compute; reflexivity).
    destruct (child_handles_spec (boot stop_db) 1 (boot_reached stop_db)) as (kids & E & _ & K). rewrite Hs in E. injection E as <-.
    destruct (usage_in (boot stop_db) 1 g it u (boot_reached stop_db) G Hu) as [Hok Hh].
    assert (Hg : g = 77 \/ g = 79 \/ get_inst (c_db (boot stop_db)) 1 g = None).
    { destruct (N.eq_dec g 77); [auto|]. destruct (N.eq_dec g 79); [auto|]. right. right.
      assert (Em : om_get (p_handles (c_db (boot stop_db))) 1 <> None) by (vm_compute; discriminate).
      unfold get_inst. destruct (om_get (p_handles (c_db (boot stop_db))) 1) as [hd|] eqn:Ehd; [|congruence].
      apply om_get_none. assert (Ek : om_keys (h_prots hd) = [77; 79]) by (vm_compute in Ehd; injection Ehd as <-; reflexivity).
      rewrite Ek. cbn. intuition congruence. }
    destruct Hg as [->|[->|Hg]]; [| |congruence]; vm_compute in G; injection G as <-; cbn in Hu;
      repeat (destruct Hu as [<-|Hu]; [cbn in Hc; discriminate Hc|]); destruct Hu. }
  split; [vm_compute; reflexivity|]. exists 77, (Some 1), 0x10. split; [left; reflexivity|]. unfold held. vm_compute. discriminate.
Qed.

Print Assumptions C40_asks_and_starts.
Print Assumptions C40_bad_handle.
Print Assumptions C40_priority_order.
Print Assumptions C40_started_once.
Print Assumptions C40_start_after_yes.
Print Assumptions C40_all_others_declined.
Print Assumptions C40_no_duplicate_start.
Print Assumptions C40_security.
Print Assumptions C40_one_controller.
Print Assumptions C40_children.
Print Assumptions C40_terminates.
Print Assumptions C40_recursion_terminates.
Print Assumptions C40_named_twice_refuted.
Print Assumptions C40_child_cycle_refuted.
Print Assumptions C40_null_override_refuted.
Print Assumptions C54_disconnect.
Print Assumptions C54_only_managers.
Print Assumptions C54_no_panic.
Print Assumptions C54_named_child_refuted.
Print Assumptions C54_no_such_child_refuted.
