(** DisconnectController. *)
From Coq Require Import Sorted Permutation.
From Verif Require Import Base.Prelude Base.Omap Protocol.Model Protocol.Spec Protocol.Proofs Protocol.Usage Protocol.Order Protocol.Services
  Protocol.SvcProofs Connect.Model Connect.Spec Connect.Proofs Connect.Sources Connect.Main.
Local Open Scope N_scope.

(** ** The open information of a controller *)
Lemma info_in s c g us : reached s -> In (g, us) (info_of (c_db s) c) <->
  exists it, get_inst (c_db s) c g = Some it /\ i_usage it = us.
Proof.
  intros H. unfold info_of, open_info_all, get_inst. destruct (om_get (p_handles (c_db s)) c) as [hd|] eqn:G.
  - destruct (pv_ps _ (hist_pinv _ _ H) _ _ G) as [Hs _]. rewrite in_map_iff. split.
    + intros ([g' it] & E & Hin). cbn [fst snd] in E. injection E as -> <-. exists it. split; [|reflexivity]. apply om_in_get; assumption.
    + intros (it & E & <-). exists (g, it). split; [reflexivity|]. apply om_get_in. exact E.
  - split; [intros []|]. intros (it & E & _). discriminate E.
Qed.

Lemma drv_bit_attr s c g it u : reached s -> get_inst (c_db s) c g = Some it -> In u (i_usage it) ->
  (has_bit (u_attr u) OPEN_BY_DRIVER = true <-> u_attr u = 0x10 \/ u_attr u = 0x30).
Proof. intros H G Hu. apply has_bit_drv. apply (usage_in s c g it u H G Hu). Qed.
Lemma kid_bit_attr s c g it u : reached s -> get_inst (c_db s) c g = Some it -> In u (i_usage it) ->
  (has_bit (u_attr u) OPEN_BY_CHILD_CONTROLLER = true <-> u_attr u = 0x8).
Proof. intros H G Hu. apply has_bit_child. apply (usage_in s c g it u H G Hu). Qed.

Lemma agents_in s c : reached s -> forall x, In x (by_driver_agents (info_of (c_db s) c)) <-> exists drv, x = Some drv /\ manages (past s) drv c.
Proof.
  intros H x. unfold by_driver_agents. rewrite in_flat_map. split.
  - intros ([g us] & Hin & Hx). apply (info_in s c g us H) in Hin. destruct Hin as (it & G & <-). cbn [snd] in Hx.
    apply in_flat_map in Hx. destruct Hx as (u & Hu & Hx).
    destruct (has_bit (u_attr u) OPEN_BY_DRIVER) eqn:B; [|destruct Hx]. destruct Hx as [<-|[]].
    apply (drv_bit_attr s c g it u H G Hu) in B. destruct (usage_in s c g it u H G Hu) as [(Ha & _) Hh].
    destruct (u_agent u) as [a|]; [|congruence]. exists a. split; [reflexivity|]. exists g, (u_ctrl u), (u_attr u). split; [exact B|].
    apply Hh. reflexivity.
  - intros (drv & -> & g & ctrl & attr & Ha & Hh). apply (held_usage s) in Hh; [|exact H].
    destruct Hh as (it & u & G & Hu & E1 & E2 & E3). exists (g, i_usage it). split; [apply (info_in s c g _ H); eauto|].
    cbn [snd]. apply in_flat_map. exists u. split; [exact Hu|]. rewrite <- E3 in Ha.
    rewrite (proj2 (drv_bit_attr s c g it u H G Hu) Ha). left. exact E1.
Qed.

Lemma still_managing_iff s c drv : reached s -> still_managing (info_of (c_db s) c) drv = true <-> manages (past s) drv c.
Proof.
  intros H. unfold still_managing. rewrite existsb_exists. split.
  - intros ([g us] & Hin & Hx). apply (info_in s c g us H) in Hin. destruct Hin as (it & G & <-). cbn [snd] in Hx.
    apply existsb_exists in Hx. destruct Hx as (u & Hu & Hx). apply andb_true_iff in Hx. destruct Hx as [Hx B].
    apply oeqb_eq in Hx. apply (drv_bit_attr s c g it u H G Hu) in B. destruct (usage_in s c g it u H G Hu) as [_ Hh].
    exists g, (u_ctrl u), (u_attr u). auto.
  - intros (g & ctrl & attr & Ha & Hh). apply (held_usage s) in Hh; [|exact H].
    destruct Hh as (it & u & G & Hu & E1 & E2 & E3). exists (g, i_usage it). split; [apply (info_in s c g _ H); eauto|].
    cbn [snd]. apply existsb_exists. exists u. split; [exact Hu|]. rewrite <- E3 in Ha.
    rewrite (proj2 (drv_bit_attr s c g it u H G Hu) Ha), E1, oeqb_refl. reflexivity.
Qed.

Lemma kids_of_in s c drv : reached s -> forall k, In k (kids_of (info_of (c_db s) c) drv) <-> child_of_driver (past s) drv c k.
Proof.
  intros H k. unfold kids_of. rewrite in_flat_map. split.
  - intros ([g us] & Hin & Hx). apply (info_in s c g us H) in Hin. destruct Hin as (it & G & <-). cbn [snd] in Hx.
    apply in_flat_map in Hx. destruct Hx as (u & Hu & Hx).
    destruct (oeqb (u_agent u) (Some drv) && has_bit (u_attr u) OPEN_BY_CHILD_CONTROLLER) eqn:B; [|destruct Hx].
    apply andb_true_iff in B. destruct B as [A B]. apply oeqb_eq in A. apply (kid_bit_attr s c g it u H G Hu) in B.
    destruct (usage_in s c g it u H G Hu) as [_ Hh]. destruct (u_ctrl u) as [x|] eqn:E; [|destruct Hx]. destruct Hx as [->|[]].
    exists g. specialize (Hh drv A). rewrite B in Hh. exact Hh.
  - intros (g & Hh). apply (held_usage s) in Hh; [|exact H].
    destruct Hh as (it & u & G & Hu & E1 & E2 & E3). exists (g, i_usage it). split; [apply (info_in s c g _ H); eauto|].
    cbn [snd]. apply in_flat_map. exists u. split; [exact Hu|].
    rewrite (proj2 (kid_bit_attr s c g it u H G Hu) E3), E1, oeqb_refl, E2. left. reflexivity.
Qed.

(** ** Removing duplicates *)
Lemma dedup_spec l : forall seen, NoDup (dedup seen l) /\ (forall x, In x (dedup seen l) <-> In x l /\ ~ In x seen).
Proof.
  induction l as [|x t IH]; intros seen; cbn [dedup].
  - split; [constructor|]. intros x. cbn. tauto.
  - destruct (mem x seen) eqn:M.
    + destruct (IH seen) as [A B]. split; [exact A|]. intros y. rewrite B. apply mem_in in M. cbn [In]. split; [tauto|].
      intros [[->|Y] Z]; [contradiction|auto].
    + destruct (IH (seen ++ [x])) as [A B].
      assert (Mn : ~ In x seen) by (intros X; apply mem_in in X; congruence). split.
      * constructor; [|exact A]. rewrite B, in_app_iff. cbn [In]. tauto.
      * intros y. cbn [In]. rewrite B, in_app_iff. cbn [In]. split.
        -- intros [->|[Y Z]]; [auto|]. split; [auto|]. tauto.
        -- intros [[->|Y] Z]; [auto|]. destruct (N.eq_dec x y); [auto|]. right. split; [exact Y|]. tauto.
Qed.

Lemma filter_eq_nodup l h : NoDup l -> filter (fun x => x =? h) l = if in_dec N.eq_dec h l then [h] else [].
Proof.
  induction 1 as [|x t Hx Hn IH]; cbn [filter]; [reflexivity|]. destruct (x =? h) eqn:E.
  - apply N.eqb_eq in E. subst x. rewrite IH. destruct (in_dec N.eq_dec h t); [contradiction|].
    destruct (in_dec N.eq_dec h (h :: t)) as [_|X]; [reflexivity|]. exfalso. apply X. left. reflexivity.
  - apply N.eqb_neq in E. rewrite IH. destruct (in_dec N.eq_dec h t) as [I|I];
      destruct (in_dec N.eq_dec h (x :: t)) as [J|J]; try reflexivity.
    + exfalso. apply J. right. exact I.
    + destruct J as [J|J]; [congruence|contradiction].
Qed.

(** ** One driver's turn *)
Definition grows (s s' : cst) : Prop := exists new, past s' = new ++ past s.
Lemma grows_refl s : grows s s. Proof. exists []. reflexivity. Qed.
Lemma grows_trans a b c : grows a b -> grows b c -> grows a c.
Proof. intros [x X] [y Y]. exists (y ++ x). rewrite Y, X, app_assoc. reflexivity. Qed.
Lemma calls_grow ops : forall p : pstate, exists new, fst (calls p ops) = new ++ fst p.
Proof.
  induction ops as [|o t IH]; intros p; cbn [calls]; [exists []; reflexivity|]. destruct (IH (snd (call p o))) as [x E]. rewrite E.
  unfold call. destruct (pstep (snd p) o) as [r d]. cbn [snd fst]. exists (x ++ [(o, r)]). rewrite <- app_assoc. reflexivity.
Qed.
Lemma run_stop_spec env s b c kids ok s' : run_stop env s b c kids = (ok, s') ->
  c_ev s' = c_ev s ++ [EStop b c kids ok] /\ grows s s' /\ (reached s -> reached s').
Proof.
  unfold run_stop. destruct (ce_stop env s b c kids) as [x ops]. intros E. injection E as <- <-.
  split; [reflexivity|]. split; [|intros H; apply log_reached, perform_reached, H].
  destruct (calls_grow ops (c_ps s)) as [n Hn]. exists n. exact Hn.
Qed.

Lemma nil_or_not {A B} (l : list A) (x y : B) : (match l with [] => x | _ => y end) = if (Nat.eqb (length l) 0) then x else y.
Proof. destruct l; reflexivity. Qed.

Lemma stop_driver_spec env s c child drv r s' : reached s -> stop_driver env s c child drv = (r, s') ->
  reached s' /\ grows s s' /\
  match r with
  | Ok counted => exists evs, c_ev s' = c_ev s ++ evs /\ stopped c child (past s) drv evs counted
  | Err e => e = InvalidParameter /\ s' = s /\ manages (past s) drv c /\ installed (past s) drv DRIVER_BINDING = None
  | Panic => False
  end.
Proof.
  intros H E. unfold stop_driver in E.
  assert (Hi : open_info_all (c_db s) c = OutInfo (info_of (c_db s) c) \/
               (info_of (c_db s) c = [] /\ exists e, open_info_all (c_db s) c = OutErr e)).
  { unfold info_of, open_info_all. destruct (om_get (p_handles (c_db s)) c); [left; reflexivity|right; eauto]. }
  pose proof (still_managing_iff s c drv H) as M. pose proof (kids_of_in s c drv H) as K.
  destruct Hi as [Hi|(Hn & e & Hi)]; rewrite Hi in E.
  2:{ injection E as <- <-. split; [exact H|]. split; [apply grows_refl|]. exists []. rewrite app_nil_r. split; [reflexivity|].
      apply stopped_gone. rewrite Hn in M. cbn in M. intros X. apply M in X. discriminate X. }
  destruct (still_managing (info_of (c_db s) c) drv) eqn:Sm.
  2:{ injection E as <- <-. split; [exact H|]. split; [apply grows_refl|]. exists []. rewrite app_nil_r. split; [reflexivity|].
      apply stopped_gone. intros X. apply M in X. discriminate X. }
  pose proof (iface_spec s drv DRIVER_BINDING H) as Hb.
  destruct (dedup_spec (kids_of (info_of (c_db s) c) drv) []) as [Dn Di].
  set (kids := dedup [] (kids_of (info_of (c_db s) c) drv)) in *.
  assert (Hk : forall k, In k kids <-> child_of_driver (past s) drv c k).
  { intros k. rewrite Di, K. cbn. tauto. }
  destruct (get_interface (c_db s) drv DRIVER_BINDING) as [| |b| | | | | | |e| |]; try contradiction.
  2:{ injection E as <- <-. split; [exact H|]. split; [apply grows_refl|]. split; [reflexivity|]. split; [reflexivity|].
      split; [apply M; reflexivity|exact Hb]. }
  set (targets := match child with Some h => filter (fun x => x =? h) kids | None => kids end) in *.
  assert (Ht : targets = match child with None => kids | Some h => if in_dec N.eq_dec h kids then [h] else [] end).
  { unfold targets. destruct child; [apply filter_eq_nodup; exact Dn|reflexivity]. }
  assert (Hw : (is_none child || match child with Some _ => Nat.eqb (length kids) (length targets) | None => false end) = true <->
               (child = None \/ (forall k, In k kids -> In k targets))).
  { destruct child as [h|]; cbn [is_none orb]; [|split; auto]. rewrite Nat.eqb_eq. split.
    - intros L. right. unfold targets in *. clear - L. revert L. induction kids as [|x t IH]; intros L k Hk; [destruct Hk|].
      cbn [filter length] in *. assert (Hle : (length (filter (fun x => N.eqb x h) t) <= length t)%nat).
      { clear. induction t; cbn [filter length]; [lia|]. destruct (a =? h); cbn [length]; lia. }
      destruct (x =? h) eqn:E; cbn [length] in L; [|lia]. destruct Hk as [->|Hk]; [left; reflexivity|]. right. apply IH; [lia|exact Hk].
    - intros [X|X]; [discriminate X|]. unfold targets in *. rewrite (filter_eq_nodup _ h Dn) in *.
      clear - X Dn. destruct (in_dec N.eq_dec h kids) as [I|I].
      + destruct kids as [|x [|y t]]; [destruct I|reflexivity|]. exfalso. inversion Dn as [|? ? A B]; subst.
        assert (Ex : In x [h]) by (apply X; left; reflexivity). assert (Ey : In y [h]) by (apply X; right; left; reflexivity).
        destruct Ex as [<-|[]], Ey as [<-|[]]. apply A. left. reflexivity.
      + destruct kids as [|x t]; [reflexivity|]. exfalso. destruct (X x). left. reflexivity. }
  clearbody targets. rewrite nil_or_not in E.
  set (only := match child with Some _ => Nat.eqb (length kids) (length targets) | None => false end) in *.
  destruct (if Nat.eqb (length targets) 0 then (true, s) else run_stop env s b c targets) as [ok1 s1] eqn:E1.
  assert (S1 : exists e1, c_ev s1 = c_ev s ++ e1 /\ grows s s1 /\ reached s1 /\
     (targets = [] /\ e1 = [] /\ ok1 = true \/ targets <> [] /\ e1 = [EStop b c targets ok1])).
  { destruct targets as [|x t] eqn:T; cbn [length Nat.eqb] in E1.
    - injection E1 as <- <-. exists []. rewrite app_nil_r. split; [reflexivity|]. split; [apply grows_refl|]. split; [exact H|]. left. auto.
    - apply run_stop_spec in E1. destruct E1 as (A & B & C). eexists. split; [exact A|]. split; [exact B|]. split; [auto|].
      right. split; [discriminate|reflexivity]. }
  destruct S1 as (e1 & V1 & G1 & R1 & O1).
  assert (Mm : manages (past s) drv c) by (apply M; reflexivity).
  destruct ok1; cbn [andb] in E.
  - destruct (is_none child || only) eqn:W.
    + destruct (run_stop env s1 b c []) as [ok2 s2] eqn:E2. injection E as <- <-. apply run_stop_spec in E2.
      destruct E2 as (A & B & C). split; [auto|]. split; [eapply grows_trans; eassumption|]. eexists.
      split; [rewrite A, V1, <- app_assoc; reflexivity|].
      apply (stopped_now c child (past s) drv b kids targets e1 true); auto. left. split; [apply Hw; reflexivity|reflexivity].
    + injection E as <- <-. split; [exact R1|]. split; [exact G1|]. exists e1. split; [exact V1|].
      apply (stopped_now c child (past s) drv b kids targets e1 true); auto. right. split; [|auto]. intros X. apply Hw in X. discriminate X.
  - injection E as <- <-. split; [exact R1|]. split; [exact G1|]. exists e1. split; [exact V1|].
    apply (stopped_now c child (past s) drv b kids targets e1 false); auto.
Qed.

Lemma stop_all_spec env c child : forall drvs s one r one' s', reached s ->
  stop_all env s c child drvs one = (r, one', s') ->
  reached s' /\ exists evs done bs rest, c_ev s' = c_ev s ++ evs /\ drvs = done ++ rest /\ turns c child (past s) done evs bs (past s') /\
  match r with
  | Success => rest = [] /\ one' = one || existsb (fun b => b) bs
  | Failed e => e = InvalidParameter /\ exists drv t, rest = drv :: t /\ manages (past s') drv c /\ installed (past s') drv DRIVER_BINDING = None
  | _ => False
  end.
Proof.
  induction drvs as [|drv t IH]; intros s one r one' s' H E; cbn [stop_all] in E.
  - injection E as <- <- <-. split; [exact H|]. exists [], [], [], []. rewrite app_nil_r, orb_false_r. repeat split; constructor.
  - destruct (stop_driver env s c child drv) as [x s1] eqn:Ed. apply stop_driver_spec in Ed; [|exact H].
    destruct Ed as (H1 & [new G] & Hx). destruct x as [b|e|]; [| |contradiction].
    + destruct Hx as (ev1 & V1 & S1). apply IH in E; [|exact H1]. destruct E as (H' & evs & done & bs & rest & V & D & T & O).
      split; [exact H'|]. exists (ev1 ++ evs), (drv :: done), (b :: bs), rest. split; [rewrite V, V1, app_assoc; reflexivity|].
      split; [rewrite D; reflexivity|]. split; [econstructor; [exact S1|rewrite <- G; exact T]|].
      destruct r; try exact O. cbn [existsb]. rewrite orb_assoc. exact O.
    + injection E as <- <- <-. destruct Hx as (-> & -> & Hm & Hn). split; [exact H|]. exists [], [], [], (drv :: t).
      rewrite app_nil_r. split; [reflexivity|]. split; [reflexivity|]. split; [constructor|]. split; [reflexivity|]. exists drv, t. auto.
Qed.

Theorem disconnect_spec env s c driver child st s' : reached s ->
  disconnect env s c driver child = (st, s') ->
  (~ (live (past s) c /\ olive (past s) driver /\ olive (past s) child) /\ st = Failed InvalidParameter /\ s' = s) \/
  (live (past s) c /\ olive (past s) driver /\ olive (past s) child /\
   exists drvs done rest evs bs,
     NoDup drvs /\ (forall d, In d drvs <-> manages (past s) d c /\ (forall x, driver = Some x -> d = x)) /\
     drvs = done ++ rest /\ c_ev s' = c_ev s ++ evs /\ turns c child (past s) done evs bs (past s') /\
     ((rest = [] /\ st = (if match drvs with [] => true | _ => existsb (fun b => b) bs end then Success else Failed NotFound)) \/
      (st = Failed InvalidParameter /\ exists drv t, rest = drv :: t /\ manages (past s') drv c /\ installed (past s') drv DRIVER_BINDING = None))).
Proof.
  intros H E. unfold disconnect in E.
  assert (Lv : forall h, validate (c_db s) h = Ok tt /\ live (past s) h \/ validate (c_db s) h = Err InvalidParameter /\ ~ live (past s) h).
  { intros h. unfold validate, om_mem, past. pose proof (hist_live _ _ h H) as L. unfold c_db.
    destruct (om_get (p_handles (snd (c_ps s))) h); [left|right]; (split; [reflexivity|]); [apply L; discriminate|].
    intros X. apply L in X. congruence. }
  assert (Lo : forall h, ovalidate (c_db s) h = Ok tt /\ olive (past s) h \/ ovalidate (c_db s) h = Err InvalidParameter /\ ~ olive (past s) h).
  { intros [h|]; cbn [ovalidate olive]; [apply Lv|]. left. auto. }
  destruct (Lv c) as [[Vc Lc]|[Vc Lc]]; rewrite Vc in E; [|left; injection E as <- <-; tauto].
  destruct (Lo driver) as [[Vd Ld]|[Vd Ld]]; rewrite Vd in E; [|left; injection E as <- <-; tauto].
  destruct (Lo child) as [[Vk Lk]|[Vk Lk]]; rewrite Vk in E; [|left; injection E as <- <-; tauto].
  right. split; [exact Lc|]. split; [exact Ld|]. split; [exact Lk|].
  pose proof (all_some_spec (by_driver_agents (info_of (c_db s) c))) as A. pose proof (agents_in s c H) as Ai.
  destruct (all_some (by_driver_agents (info_of (c_db s) c))) as [agents|].
  2:{ exfalso. apply Ai in A. destruct A as (d & A & _). discriminate A. }
  destruct (dedup_spec agents []) as [Dn Di].
  set (drvs := match driver with Some d => filter (fun x => x =? d) (dedup [] agents) | None => dedup [] agents end) in *.
  assert (Hin : forall d, In d drvs <-> manages (past s) d c /\ (forall x, driver = Some x -> d = x)).
  { assert (Hd : forall d, In d (dedup [] agents) <-> manages (past s) d c).
    { intros d. rewrite Di. split.
      - intros [X _]. assert (Y : In (Some d) (by_driver_agents (info_of (c_db s) c))) by (rewrite A; apply in_map; exact X).
        apply Ai in Y. destruct Y as (d' & Y & Z). congruence.
      - intros X. split; [|intros []]. assert (Y : In (Some d) (map Some agents)) by (rewrite <- A; apply Ai; eauto).
        apply in_map_iff in Y. destruct Y as (d' & Y & Z). congruence. }
    intros d. unfold drvs. destruct driver as [x|].
    - rewrite filter_In, Hd, N.eqb_eq. split; [intros [X ->]; split; [exact X|congruence]|]. intros [X Y]. auto.
    - rewrite Hd. split; [intros X; split; [exact X|discriminate]|tauto]. }
  assert (Hnd : NoDup drvs) by (unfold drvs; destruct driver; [apply NoDup_filter|]; exact Dn).
  clearbody drvs. destruct (stop_all env s c child drvs false) as [[x one] s1] eqn:Es.
  apply stop_all_spec in Es; [|exact H]. destruct Es as (H' & evs & done & bs & rest & V & D & T & O).
  destruct x; try contradiction.
  - destruct O as [-> ->]. cbn [orb] in E. exists drvs, done, [], evs, bs. 
    assert (s1 = s') by (destruct (existsb _ bs || _); injection E as _ <-; reflexivity). subst s1.
    split; [exact Hnd|]. split; [exact Hin|]. split; [exact D|]. split; [exact V|]. split; [exact T|]. left. split; [reflexivity|].
    rewrite app_nil_r in D. subst done. destruct drvs as [|d t].
    + rewrite orb_true_r in E. injection E as <-. reflexivity.
    + rewrite orb_false_r in E. destruct (existsb _ bs); injection E as <-; reflexivity.
  - destruct O as (-> & drv & t & -> & Hm & Hn). injection E as <- <-. exists drvs, done, (drv :: t), evs, bs.
    split; [exact Hnd|]. split; [exact Hin|]. split; [exact D|]. split; [exact V|]. split; [exact T|]. right. split; [reflexivity|]. exists drv, t. auto.
Qed.

(** ** What the calls of a disconnect look like *)
Lemma turns_calls c child t drvs evs bs t' : turns c child t drvs evs bs t' -> forall e, In e evs ->
  exists drv b kids ok u v, e = EStop b c kids ok /\ In drv drvs /\ t' = v ++ u /\ manages u drv c /\
    installed u drv DRIVER_BINDING = Some b /\ (forall k, In k kids -> child_of_driver u drv c k) /\
    (forall h, child = Some h -> kids = [] \/ kids = [h]).
Proof.
  induction 1 as [t|t drv evs b new drvs evs' bs t' S T IH]; intros e He; [destruct He|].
  assert (Ht : exists v, t' = v ++ t).
  { clear - T. assert (G : forall a b0 d0 d1 d2, turns c child a d0 d1 d2 b0 -> exists v, b0 = v ++ a).
    { clear. induction 1 as [|t drv evs b new drvs evs' bs t' _ _ [v IH]]; [exists []; reflexivity|].
      exists (v ++ new). rewrite <- app_assoc. exact IH. }
    destruct (G _ _ _ _ _ T) as [v ->]. exists (v ++ new). rewrite <- app_assoc. reflexivity. }
  destruct Ht as [v Ht]. apply in_app_iff in He. destruct He as [He|He].
  - inversion S as [Hg|b' kids targets e1 ok1 evs0 counted Hm Hb Hn Hk Htg He1 Hf]; subst; [destruct He|].
    set (targets := match child with None => kids | Some h => if in_dec N.eq_dec h kids then [h] else [] end) in *.
    assert (Hsub : forall k, In k targets -> child_of_driver t drv c k).
    { intros k. unfold targets. destruct child as [h|]; [|apply Hk]. destruct (in_dec N.eq_dec h kids); [|intros []].
      intros [<-|[]]. apply Hk. assumption. }
    assert (Hone : forall h, child = Some h -> targets = [] \/ targets = [h]).
    { intros h E. unfold targets. rewrite E. destruct (in_dec N.eq_dec h kids); auto. }
    assert (He' : e = EStop b' c targets ok1 \/ exists ok, e = EStop b' c [] ok).
    { assert (H1 : In e e1 -> e = EStop b' c targets ok1).
      { destruct He1 as [(_ & -> & _)|(_ & ->)]; [intros []|]. intros [<-|[]]. reflexivity. }
      destruct ok1.
      - destruct Hf as [(_ & Hf)|(_ & Hf & _)]; subst evs; [|auto]. apply in_app_iff in He. destruct He as [He|[He|[]]]; [auto|eauto].
      - destruct Hf as [-> _]. auto. }
    destruct He' as [->|[ok ->]].
    + exists drv, b', targets, ok1, t, v. repeat split; auto. left. reflexivity.
    + exists drv, b', [], ok, t, v. repeat split; auto; [left; reflexivity|]. intros k [].
  - apply IH in He. destruct He as (drv' & b' & kids & ok & u & v' & A & B & C & D). exists drv', b', kids, ok, u, v'.
    repeat split; auto; try apply D. right. exact B.
Qed.
