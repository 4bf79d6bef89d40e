(** Where the candidates of a connect come from. *)
From Coq Require Import Sorted Permutation.
From Verif Require Import Base.Prelude Base.Omap Protocol.Model Protocol.Spec Protocol.Proofs Protocol.Order Protocol.Services
  Protocol.SvcProofs Connect.Model Connect.Spec Connect.Proofs.
Local Open Scope N_scope.

(** ** Reading the database *)
Lemma iface_spec s h g : reached s ->
  match get_interface (c_db s) h g with
  | OutIface i => installed (past s) h g = Some i
  | OutErr _ => installed (past s) h g = None
  | _ => False
  end.
Proof.
  intros H. unfold get_interface, validate, om_mem, c_db, past. unfold reached in H.
  pose proof (hist_iface _ _ H h g) as E. pose proof (hist_live _ _ h H) as L.
  destruct (om_get (p_handles (snd (c_ps s))) h) eqn:G.
  - destruct (get_inst (snd (c_ps s)) h g); cbn in E; congruence.
  - unfold get_inst in E. rewrite G in E. cbn in E. congruence.
Qed.

Lemma bindings_binds s hs : reached s -> bindings_of (c_db s) hs = binds (past s) hs.
Proof.
  intros H. unfold bindings_of, binds. induction hs as [|h t IH]; cbn [flat_map]; [reflexivity|]. rewrite IH. f_equal.
  pose proof (iface_spec s h DRIVER_BINDING H) as E.
  destruct (get_interface (c_db s) h DRIVER_BINDING); try contradiction; rewrite E; reflexivity.
Qed.

Lemma find_inst_spec hs g : om_sorted hs ->
  match find_inst hs g with
  | Some it => exists h hd, om_get hs h = Some hd /\ om_get (h_prots hd) g = Some it
  | None => forall h hd, om_get hs h = Some hd -> om_get (h_prots hd) g = None
  end.
Proof.
  induction hs as [|[k hd] t IH]; intros Hs; cbn [find_inst].
  - cbn. discriminate.
  - specialize (IH (om_sorted_tl _ _ _ Hs)). destruct (om_get (h_prots hd) g) as [it|] eqn:E.
    + exists k, hd. cbn [om_get]. rewrite N.eqb_refl. auto.
    + assert (Hk : om_get t k = None).
      { apply om_get_none. intros X. pose proof (om_sorted_hd _ _ _ _ Hs X). lia. }
      destruct (find_inst t g) as [it|].
      * destruct IH as (h & hd' & A & B). exists h, hd'. split; [|exact B]. cbn [om_get].
        destruct (h =? k) eqn:X; [apply N.eqb_eq in X; congruence|]. exact A.
      * intros h hd'. cbn [om_get]. destruct (h =? k) eqn:X; [intros Y; injection Y as <-; exact E|]. apply IH.
Qed.

Lemma locate_protocol_spec s g : reached s ->
  match locate_protocol (c_db s) g with
  | OutIface i => exists h, installed (past s) h g = Some i
  | OutErr _ => forall h, installed (past s) h g = None
  | _ => False
  end.
Proof.
  intros H. unfold locate_protocol, c_db, past. unfold reached in H.
  pose proof (find_inst_spec _ g (pv_hs _ (hist_pinv _ _ H))) as F.
  destruct (find_inst (p_handles (snd (c_ps s))) g) as [it|].
  - destruct F as (h & hd & A & B). exists h. rewrite <- (hist_iface _ _ H). unfold get_inst. rewrite A, B. reflexivity.
  - intros h. rewrite <- (hist_iface _ _ H). unfold get_inst.
    destruct (om_get (p_handles (snd (c_ps s))) h) eqn:E; [|reflexivity]. rewrite (F _ _ E). reflexivity.
Qed.

Lemma locate_handles_spec s : reached s ->
  match locate_handles (c_db s) (Some DRIVER_BINDING) with
  | OutHandles l => binding_handles (past s) l
  | OutErr _ => binding_handles (past s) []
  | _ => False
  end.
Proof.
  intros H. unfold reached in H. pose proof (locate_list _ _ (Some DRIVER_BINDING) H) as L. cbv zeta in L.
  unfold locate_handles, c_db. unfold selected in L.
  assert (W : binding_handles (past s) (map fst (sort_by (map (fun kh : N * hnd => (fst kh, h_order (snd kh)))
            (filter (fun kh : N * hnd => om_mem (h_prots (snd kh)) DRIVER_BINDING) (p_handles (snd (c_ps s)))))))).
  { destruct L as (A & B & C). split; [exact A|]. split; [|exact C]. intros h. rewrite B. cbn [has_protocol].
    unfold past. split; [intros [i E]; congruence|]. destruct (installed (fst (c_ps s)) h DRIVER_BINDING); [eauto|congruence]. }
  destruct (filter _ (p_handles (snd (c_ps s)))) as [|x t] eqn:E; [exact W|exact W].
Qed.

(** ** The override protocols, when they leave the database alone *)
Definition same_ps (s s' : cst) : Prop := c_ps s' = c_ps s.

Lemma get_drivers_quiet fuel f ev : (forall s p, snd (f s p) = []) -> forall s prev acc l s',
  get_drivers fuel f ev s prev acc = (Got l, s') ->
  exists ans, l = acc ++ ans /\ c_ev s' = c_ev s ++ map (fun a => ev (Some a)) ans ++ [ev None] /\ c_ps s' = c_ps s.
Proof.
  intros Q. induction fuel as [|k IH]; intros s prev acc l s' H; cbn [get_drivers] in H; [discriminate H|].
  specialize (Q s prev). destruct (f s prev) as [r ops]. cbn [snd] in Q. subst ops. rewrite perform_nil in H.
  destruct r as [h|].
  - apply IH in H. destruct H as (ans & -> & E & P). exists (h :: ans). split; [rewrite <- app_assoc; reflexivity|].
    split; [|exact P]. rewrite E. cbn [c_ev log map]. rewrite <- app_assoc. reflexivity.
  - injection H as <- <-. exists []. split; [symmetry; apply app_nil_r|]. split; reflexivity.
Qed.

Lemma platform_quiet fuel env s c l s' : quiet_overrides env -> reached s ->
  platform_bindings fuel env s c = (Got l, s') ->
  exists evs, c_ev s' = c_ev s ++ evs /\ c_ps s' = c_ps s /\ platform_source (past s) c evs l.
Proof.
  intros (Q & _ & _) H E. unfold platform_bindings in E. pose proof (locate_protocol_spec s PLATFORM_OVERRIDE H) as L.
  destruct (locate_protocol (c_db s) PLATFORM_OVERRIDE) as [| |p| | | | | | |e| |]; try contradiction.
  - destruct L as [h L]. destruct (p =? 0); [discriminate E|].
    destruct (get_drivers fuel _ (EPlatform p c) s 0 []) as [r s1] eqn:G. destruct r as [hs| |]; try discriminate E.
    injection E as <- <-. apply get_drivers_quiet in G; [|intros; apply Q].
    destruct G as (ans & -> & Ev & P). eexists. split; [exact Ev|]. split; [exact P|].
    right. exists h, p, ans. split; [exact L|]. split; [reflexivity|]. cbn [app].
    rewrite bindings_binds by (unfold reached; rewrite P; exact H). unfold past. rewrite P. reflexivity.
  - injection E as <- <-. exists []. rewrite app_nil_r. split; [reflexivity|]. split; [reflexivity|]. left. auto.
Qed.

Lemma bus_quiet fuel env s c l s' : quiet_overrides env -> reached s ->
  bus_bindings fuel env s c = (Got l, s') ->
  exists evs, c_ev s' = c_ev s ++ evs /\ c_ps s' = c_ps s /\ bus_source (past s) c evs l.
Proof.
  intros (_ & _ & Q) H E. unfold bus_bindings in E. pose proof (iface_spec s c BUS_OVERRIDE H) as L.
  destruct (get_interface (c_db s) c BUS_OVERRIDE) as [| |p| | | | | | |e| |]; try contradiction.
  - destruct (p =? 0); [discriminate E|].
    destruct (get_drivers fuel _ (EBus p c) s 0 []) as [r s1] eqn:G. destruct r as [hs| |]; try discriminate E.
    injection E as <- <-. apply get_drivers_quiet in G; [|intros; apply Q].
    destruct G as (ans & -> & Ev & P). eexists. split; [exact Ev|]. split; [exact P|].
    right. exists p, ans. split; [exact L|]. split; [reflexivity|]. cbn [app].
    rewrite bindings_binds by (unfold reached; rewrite P; exact H). unfold past. rewrite P. reflexivity.
  - injection E as <- <-. exists []. rewrite app_nil_r. split; [reflexivity|]. split; [reflexivity|]. left. auto.
Qed.

(** The map of versions holds, for each version, the last handle that reported it. *)
Definition last_with (fam : list (N * N * N)) (v h : N) : Prop :=
  exists before p after, fam = before ++ (h, p, v) :: after /\ forall h' p', ~ In (h', p', v) after.

Lemma last_with_snoc fam h p v v' h' :
  last_with (fam ++ [(h, p, v)]) v' h' <-> if v' =? v then h' = h else last_with fam v' h'.
Proof.
  split.
  - intros (b & q & a & E & Hn). destruct (v' =? v) eqn:X.
    + apply N.eqb_eq in X. subst v'. destruct a as [|x a] using rev_ind.
      * apply app_inj_tail in E. destruct E as [_ E]. injection E as -> ->. reflexivity.
      * exfalso. change ((h', q, v) :: a ++ [x]) with (((h', q, v) :: a) ++ [x]) in E. rewrite app_assoc in E.
        apply app_inj_tail in E. destruct E as [_ <-]. apply (Hn h p). apply in_app_iff. right. left. reflexivity.
    + apply N.eqb_neq in X. destruct a as [|x a] using rev_ind.
      * apply app_inj_tail in E. destruct E as [_ E]. congruence.
      * change ((h', q, v') :: a ++ [x]) with (((h', q, v') :: a) ++ [x]) in E. rewrite app_assoc in E.
        apply app_inj_tail in E. destruct E as [E _]. exists b, q, a. split; [exact E|].
        intros h2 p2 Hi. apply (Hn h2 p2). apply in_app_iff. left. exact Hi.
  - destruct (v' =? v) eqn:X.
    + intros ->. apply N.eqb_eq in X. subst. exists fam, p, []. split; [reflexivity|]. intros ? ? [].
    + apply N.eqb_neq in X. intros (b & q & a & -> & Hn). exists b, q, (a ++ [(h, p, v)]).
      split; [rewrite <- app_assoc; reflexivity|]. intros h2 p2 Hi. apply in_app_iff in Hi.
      destruct Hi as [Hi|[Hi|[]]]; [exact (Hn _ _ Hi)|]. congruence.
Qed.

Definition has_family (tr : list pcall) (h : N) : bool :=
  match installed tr h FAMILY_OVERRIDE with Some _ => true | None => false end.

Lemma family_map_quiet env : quiet_overrides env -> forall hs s m fam r s',
  reached s -> om_sorted m -> (forall v h, om_get m v = Some h <-> last_with fam v h) ->
  family_map env s hs m = (Got r, s') ->
  exists more, c_ev s' = c_ev s ++ map (fun x => EFamily (snd (fst x)) (snd x)) more /\ c_ps s' = c_ps s /\
    map (fun x => fst (fst x)) more = filter (has_family (past s)) hs /\
    (forall h p v, In (h, p, v) more -> installed (past s) h FAMILY_OVERRIDE = Some p) /\
    om_sorted r /\ (forall v h, om_get r v = Some h <-> last_with (fam ++ more) v h).
Proof.
  intros Q. induction hs as [|h t IH]; intros s m fam r s' H Hs Hm E; cbn [family_map] in E.
  - injection E as <- <-. exists []. rewrite !app_nil_r. cbn. repeat split; auto; try apply Hm. intros ? ? ? [].
  - pose proof (iface_spec s h FAMILY_OVERRIDE H) as L.
    destruct (get_interface (c_db s) h FAMILY_OVERRIDE) as [| |p| | | | | | |e| |] eqn:G; try contradiction.
    + destruct (p =? 0); [discriminate E|]. destruct Q as (_ & Q & _). pose proof (Q s p) as Qs.
      destruct (ce_family env s p) as [v ops] eqn:F. cbn [snd] in Qs. subst ops. rewrite perform_nil in E.
      apply (IH _ _ (fam ++ [(h, p, v)])) in E.
      * destruct E as (more & A & B & C & D & S & M). exists ((h, p, v) :: more). cbn [map fst snd].
        split; [rewrite A; cbn [c_ev log]; rewrite <- app_assoc; reflexivity|]. split; [exact B|].
        split; [cbn [filter]; unfold has_family at 1; rewrite L, C; reflexivity|].
        split; [intros h0 p0 v0 [X|X]; [injection X as <- <- <-; exact L|exact (D _ _ _ X)]|].
        split; [exact S|]. intros v0 h0. rewrite M, <- app_assoc. reflexivity.
      * exact H.
      * apply om_sorted_set. exact Hs.
      * intros v0 h0. rewrite om_get_set, last_with_snoc. destruct (v0 =? v); [split; congruence|apply Hm].
    + apply (IH _ _ fam) in E; auto. destruct E as (more & A & B & C & D & S & M). exists more.
      repeat split; auto; try apply M. cbn [filter]. unfold has_family at 1. rewrite L. exact C.
Qed.

Lemma sorted_rev_desc {A} (m : omap A) : om_sorted m -> StronglySorted (fun a b : N * A => fst b < fst a) (rev m).
Proof.
  induction m as [|[k v] t IH]; intros H; cbn [rev]; [constructor|].
  assert (Hl : forall x, In x (rev t) -> k < fst x).
  { intros x Hx. apply (om_sorted_hd _ _ _ _ H). apply in_map. apply in_rev. exact Hx. }
  specialize (IH (om_sorted_tl _ _ _ H)). revert IH Hl. generalize (rev t). induction l as [|x l IHl]; intros Hs Hl; cbn [app].
  - constructor; [constructor|constructor].
  - inversion Hs as [|? ? Ha Hb]; subst. constructor; [apply IHl; auto; intros y Hy; apply Hl; right; exact Hy|].
    apply Forall_app. split; [exact Hb|]. constructor; [|constructor]. cbn [fst]. apply Hl. left. reflexivity.
Qed.

Lemma family_quiet env s l s' : quiet_overrides env -> reached s ->
  family_bindings env s = (Got l, s') ->
  exists evs, c_ev s' = c_ev s ++ evs /\ c_ps s' = c_ps s /\ family_source (past s) evs l.
Proof.
  intros Q H E. unfold family_bindings in E. pose proof (locate_handles_spec s H) as L.
  destruct (locate_handles (c_db s) (Some DRIVER_BINDING)) as [| | |hs| | | | | |e| |]; try contradiction.
  - destruct (family_map env s hs []) as [r s1] eqn:F. destruct r as [m| |]; try discriminate E. injection E as <- <-.
    apply (family_map_quiet env Q hs s [] []) in F; auto.
    + destruct F as (fam & A & B & C & D & S & M). eexists. split; [exact A|]. split; [exact B|].
      exists hs, fam, (rev m). split; [exact L|]. split; [exact C|]. split; [exact D|]. split; [reflexivity|].
      split; [apply sorted_rev_desc; exact S|]. split.
      * intros v h. rewrite <- in_rev. cbn [app] in M. rewrite <- (M v h). split.
        -- apply om_in_get. exact S.
        -- apply om_get_in.
      * rewrite bindings_binds by (unfold reached; rewrite B; exact H). unfold past. rewrite B, map_rev. reflexivity.
    + apply om_sorted_nil.
    + intros v h. cbn. split; [discriminate|]. intros (b & p & a & X & _). destruct b; discriminate X.
  - injection E as <- <-. exists []. rewrite app_nil_r. split; [reflexivity|]. split; [reflexivity|].
    exists [], [], []. split; [exact L|]. cbn. repeat split; auto; try constructor.
    + intros ? ? ? [].
    + intros [].
    + intros (b & p & a & X & _). destruct b; discriminate X.
Qed.

Lemma all_bindings_spec env s : sorts env -> reached s -> search_source (ce_version env s) (past s) (all_bindings env s).
Proof.
  intros So H. unfold all_bindings. pose proof (locate_handles_spec s H) as L.
  destruct (locate_handles (c_db s) (Some DRIVER_BINDING)) as [| | |hs| | | | | |e| |]; try contradiction.
  - exists hs. split; [exact L|]. rewrite bindings_binds by exact H. apply So.
  - exists []. split; [exact L|]. split; constructor.
Qed.

(** ** Merging the sources *)
Definition fresh (earlier : list N) (b : N) : bool := if in_dec N.eq_dec b earlier then false else true.

Lemma without_fresh seen earlier l : (forall b, In b seen <-> In b earlier) ->
  without seen l = filter (fresh earlier) l.
Proof.
  intros E. unfold without. apply filter_ext. intros b. unfold fresh. destruct (in_dec N.eq_dec b earlier) as [I|I].
  - apply E, mem_in in I. rewrite I. reflexivity.
  - destruct (mem b seen) eqn:M; [|reflexivity]. apply mem_in, E in M. contradiction.
Qed.

Lemma fresh_nil l : filter (fresh []) l = l.
Proof. induction l; cbn; [reflexivity|]. f_equal. assumption. Qed.

Lemma merge_step c e l : (forall b, In b c <-> In b e) -> forall b, In b (c ++ without c l) <-> In b (e ++ l).
Proof.
  intros H b. rewrite !in_app_iff, without_in, H. destruct (in_dec N.eq_dec b e); tauto.
Qed.

Lemma merge_five l1 l2 l3 l4 l5 :
  let c2 := l1 ++ without l1 l2 in let c3 := c2 ++ without c2 l3 in let c4 := c3 ++ without c3 l4 in
  c4 ++ without c4 l5 = by_priority [] [l1; l2; l3; l4; l5].
Proof.
  intros c2 c3 c4.
  assert (E2 : forall b, In b c2 <-> In b (l1 ++ l2)) by (apply merge_step; tauto).
  assert (E3 : forall b, In b c3 <-> In b ((l1 ++ l2) ++ l3)) by (apply merge_step; exact E2).
  assert (E4 : forall b, In b c4 <-> In b (((l1 ++ l2) ++ l3) ++ l4)) by (apply merge_step; exact E3).
  cbn [by_priority]. cbn [app]. fold (fresh []) (fresh l1) (fresh (l1 ++ l2)) (fresh ((l1 ++ l2) ++ l3)) (fresh (((l1 ++ l2) ++ l3) ++ l4)).
  rewrite app_nil_r, fresh_nil.
  rewrite <- (without_fresh l1 l1) by tauto. rewrite <- (without_fresh c2 _ l3 E2), <- (without_fresh c3 _ l4 E3), <- (without_fresh c4 _ l5 E4).
  unfold c4, c3, c2. rewrite <- !app_assoc. reflexivity.
Qed.

Lemma by_priority_in srcs : forall earlier b, In b (by_priority earlier srcs) -> ~ In b earlier /\ exists l, In l srcs /\ In b l.
Proof.
  induction srcs as [|l t IH]; intros earlier b H; cbn [by_priority] in H; [destruct H|].
  apply in_app_iff in H. destruct H as [H|H].
  - apply filter_In in H. destruct H as [H F]. destruct (in_dec N.eq_dec b earlier); [discriminate F|].
    split; [assumption|]. exists l. split; [left; reflexivity|exact H].
  - apply IH in H. destruct H as [A (l' & B & C)]. rewrite in_app_iff in A. split; [tauto|]. exists l'. split; [right; exact B|exact C].
Qed.

Lemma by_priority_nodup srcs : forall earlier, Forall (@NoDup N) srcs -> NoDup (by_priority earlier srcs).
Proof.
  induction srcs as [|l t IH]; intros earlier H; cbn [by_priority]; [constructor|]. inversion H as [|? ? A B]; subst.
  assert (N1 : NoDup (filter (fun b => if in_dec N.eq_dec b earlier then false else true) l)) by (apply NoDup_filter; exact A).
  assert (N2 : NoDup (by_priority (earlier ++ l) t)) by (apply IH; exact B).
  assert (D : forall b, In b (filter (fun b => if in_dec N.eq_dec b earlier then false else true) l) -> ~ In b (by_priority (earlier ++ l) t)).
  { intros b Hb X. apply by_priority_in in X. destruct X as [X _]. apply X. apply in_app_iff. right. apply filter_In in Hb. tauto. }
  revert N1 D. generalize (filter (fun b => if in_dec N.eq_dec b earlier then false else true) l). intros q N1 D.
  induction q as [|x q IHq]; cbn [app]; [exact N2|]. inversion N1; subst. constructor.
  - rewrite in_app_iff. intros [X|X]; [contradiction|]. exact (D x (or_introl eq_refl) X).
  - apply IHq; auto. intros b Hb. apply D. right. exact Hb.
Qed.

(** Where the candidates come from. *)
Theorem candidates_quiet fuel env s c drivers l s' :
  quiet_overrides env -> sorts env -> reached s -> candidates fuel env s c drivers = (Got l, s') ->
  exists e2 l2 e3 l3 e4 l4 l5,
    c_ev s' = c_ev s ++ e2 ++ e3 ++ e4 /\ c_ps s' = c_ps s /\
    platform_source (past s) c e2 l2 /\ family_source (past s) e3 l3 /\ bus_source (past s) c e4 l4 /\
    search_source (ce_version env s') (past s) l5 /\
    l = by_priority [] [binds (past s) drivers; l2; l3; l4; l5].
Proof.
  intros Q So H E. unfold candidates in E.
  destruct (platform_bindings fuel env s c) as [r2 s2] eqn:E2. destruct r2 as [l2| |]; try discriminate E.
  destruct (family_bindings env s2) as [r3 s3] eqn:E3. destruct r3 as [l3| |]; try discriminate E.
  destruct (bus_bindings fuel env s3 c) as [r4 s4] eqn:E4. destruct r4 as [l4| |]; try discriminate E.
  injection E as El Es. subst s4. apply platform_quiet in E2; auto. destruct E2 as (e2 & V2 & P2 & S2).
  assert (H2 : reached s2) by (unfold reached; rewrite P2; exact H).
  apply family_quiet in E3; auto. destruct E3 as (e3 & V3 & P3 & S3).
  assert (H3 : reached s3) by (unfold reached; rewrite P3; exact H2).
  apply bus_quiet in E4; auto. destruct E4 as (e4 & V4 & P4 & S4).
  assert (H4 : reached s') by (unfold reached; rewrite P4; exact H3).
  assert (T2 : past s2 = past s) by (unfold past; rewrite P2; reflexivity).
  assert (T3 : past s3 = past s) by (unfold past; rewrite P3, P2; reflexivity).
  assert (T4 : past s' = past s) by (unfold past; rewrite P4, P3, P2; reflexivity).
  exists e2, l2, e3, l3, e4, l4, (all_bindings env s').
  split; [rewrite V4, V3, V2, <- !app_assoc; reflexivity|]. split; [congruence|]. rewrite T2 in S3. rewrite T3 in S4.
  split; [exact S2|]. split; [exact S3|]. split; [exact S4|].
  split; [rewrite <- T4; apply all_bindings_spec; assumption|].
  rewrite <- El. rewrite (bindings_binds s drivers H). apply merge_five.
Qed.

(** ** Any override protocols *)
Definition collecting (e : cev) : Prop := match e with EPlatform _ _ _ | EFamily _ _ | EBus _ _ _ => True | _ => False end.

Lemma get_drivers_any fuel f ev : (forall a, collecting (ev a)) -> forall s prev acc r s',
  get_drivers fuel f ev s prev acc = (r, s') ->
  (exists evs, c_ev s' = c_ev s ++ evs /\ Forall collecting evs) /\ (reached s -> reached s').
Proof.
  intros C. induction fuel as [|k IH]; intros s prev acc r s' H; cbn [get_drivers] in H.
  - injection H as <- <-. split; [exists []; rewrite app_nil_r; split; auto|auto].
  - destruct (f s prev) as [x ops]. destruct x as [h|].
    + apply IH in H. destruct H as [(evs & E & F) R]. split.
      * eexists (_ :: evs). split; [rewrite E; cbn [c_ev log perform]; rewrite <- app_assoc; reflexivity|]. constructor; auto.
      * intros Hr. apply R, log_reached, perform_reached, Hr.
    + injection H as <- <-. split.
      * eexists [_]. split; [reflexivity|]. constructor; auto.
      * intros Hr. apply log_reached, perform_reached, Hr.
Qed.

Lemma family_map_any env : forall hs s m r s', family_map env s hs m = (r, s') ->
  (exists evs, c_ev s' = c_ev s ++ evs /\ Forall collecting evs) /\ (reached s -> reached s').
Proof.
  induction hs as [|h t IH]; intros s m r s' H; cbn [family_map] in H.
  - injection H as <- <-. split; [exists []; rewrite app_nil_r; split; auto|auto].
  - destruct (get_interface (c_db s) h FAMILY_OVERRIDE); try (apply IH in H; exact H).
    destruct (i =? 0); [injection H as <- <-; split; [exists []; rewrite app_nil_r; split; auto|auto]|].
    destruct (ce_family env s i) as [v ops]. apply IH in H. destruct H as [(evs & E & F) R]. split.
    + eexists (_ :: evs). split; [rewrite E; cbn [c_ev log perform]; rewrite <- app_assoc; reflexivity|]. constructor; [exact I|exact F].
    + intros Hr. apply R, log_reached, perform_reached, Hr.
Qed.

Definition steps_collect (s s' : cst) : Prop :=
  (exists evs, c_ev s' = c_ev s ++ evs /\ Forall collecting evs) /\ (reached s -> reached s').
Lemma sc_refl s : steps_collect s s.
Proof. split; [exists []; rewrite app_nil_r; split; auto|auto]. Qed.
Lemma sc_trans a b c : steps_collect a b -> steps_collect b c -> steps_collect a c.
Proof.
  intros [(e1 & A1 & B1) R1] [(e2 & A2 & B2) R2]. split; [|auto]. exists (e1 ++ e2).
  split; [rewrite A2, A1, <- app_assoc; reflexivity|apply Forall_app; auto].
Qed.

Lemma platform_any fuel env s c r s' : platform_bindings fuel env s c = (r, s') -> steps_collect s s'.
Proof.
  unfold platform_bindings. destruct (locate_protocol _ _); try (intros E; injection E as <- <-; apply sc_refl).
  destruct (i =? 0); [intros E; injection E as <- <-; apply sc_refl|].
  destruct (get_drivers _ _ _ s 0 []) as [x s1] eqn:G. intros E.
  assert (s1 = s') by (destruct x; injection E as _ <-; reflexivity). subst s1.
  eapply get_drivers_any; [|exact G]. exact (fun a => I).
Qed.
Lemma bus_any fuel env s c r s' : bus_bindings fuel env s c = (r, s') -> steps_collect s s'.
Proof.
  unfold bus_bindings. destruct (get_interface _ _ _); try (intros E; injection E as <- <-; apply sc_refl).
  destruct (i =? 0); [intros E; injection E as <- <-; apply sc_refl|].
  destruct (get_drivers _ _ _ s 0 []) as [x s1] eqn:G. intros E.
  assert (s1 = s') by (destruct x; injection E as _ <-; reflexivity). subst s1.
  eapply get_drivers_any; [|exact G]. exact (fun a => I).
Qed.
Lemma family_any env s r s' : family_bindings env s = (r, s') -> steps_collect s s'.
Proof.
  unfold family_bindings. destruct (locate_handles _ _); try (intros E; injection E as <- <-; apply sc_refl).
  destruct (family_map env s l []) as [x s1] eqn:G. intros E.
  assert (s1 = s') by (destruct x; injection E as _ <-; reflexivity). subst s1. eapply family_map_any; exact G.
Qed.

Lemma candidates_any fuel env s c drivers r s' : candidates fuel env s c drivers = (r, s') -> steps_collect s s'.
Proof.
  unfold candidates. intros E.
  destruct (platform_bindings fuel env s c) as [r2 s2] eqn:E2. apply platform_any in E2.
  destruct r2 as [l2| |]; try (injection E as <- <-; exact E2).
  destruct (family_bindings env s2) as [r3 s3] eqn:E3. apply family_any in E3.
  destruct r3 as [l3| |]; try (injection E as <- <-; eapply sc_trans; eassumption).
  destruct (bus_bindings fuel env s3 c) as [r4 s4] eqn:E4. apply bus_any in E4.
  assert (s4 = s') by (destruct r4; injection E as _ <-; reflexivity). subst s4.
  eapply sc_trans; [exact E2|]. eapply sc_trans; eassumption.
Qed.
