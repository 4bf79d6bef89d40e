(** Registrations. *)
From Verif Require Import Base.Prelude Base.Omap Protocol.Model Protocol.Spec Protocol.Proofs.
Local Open Scope N_scope.

Lemma om_get_map {A B} (f : A -> B) (m : omap A) k :
  om_get (map (fun kv => (fst kv, f (snd kv))) m) k = option_map f (om_get m k).
Proof.
  induction m as [|[q v] t IH]; cbn [map om_get fst snd]; [reflexivity|].
  destruct (k =? q); [reflexivity|exact IH].
Qed.
Lemma om_sorted_map {A B} (f : A -> B) (m : omap A) :
  om_sorted m -> om_sorted (map (fun kv => (fst kv, f (snd kv))) m).
Proof.
  unfold om_sorted, om_keys. rewrite map_map. cbn [fst]. auto.
Qed.

(** Unregistering. *)
Definition keep (evs : list N) (n : notify) : bool := negb (existsb (N.eqb (nt_event n)) evs).

Lemma unregister_notif evs : forall d,
  p_notif (unregister_events d evs) = map (fun kl => (fst kl, filter (keep evs) (snd kl))) (p_notif d).
Proof.
  induction evs as [|e t IH]; intros d; cbn [unregister_events fold_left].
  - rewrite <- map_id at 1. apply map_ext. intros [g ns]. cbn [fst snd]. f_equal.
    induction ns; cbn [filter keep existsb negb]; [reflexivity|]. f_equal. assumption.
  - change (fold_left unregister_event t (unregister_event d e)) with (unregister_events (unregister_event d e) t).
    rewrite IH. unfold unregister_event. cbn [set_notif p_notif]. rewrite map_map. apply map_ext.
    intros [g ns]. cbn [fst snd]. f_equal.
    induction ns as [|n ns IHn]; cbn [filter]; [reflexivity|].
    unfold keep at 2. cbn [existsb]. rewrite negb_orb.
    destruct (nt_event n =? e); cbn [negb andb filter]; [exact IHn|]. fold (keep t n). destruct (keep t n); [f_equal|]; exact IHn.
Qed.

(** Taking the next handle of a registration. *)
Definition drop_first (r : N) (n : notify) : notify :=
  if nt_reg n =? r then MkN (nt_event n) (nt_reg n) (tl (nt_fresh n)) else n.

Lemma drop_first_other r ns : (forall n, In n ns -> nt_reg n <> r) -> map (drop_first r) ns = ns.
Proof.
  induction ns as [|n t IH]; intros H; cbn [map]; [reflexivity|]. f_equal.
  - unfold drop_first. destruct (nt_reg n =? r) eqn:E; [|reflexivity]. exfalso. apply (H n); [left; reflexivity|lia].
  - apply IH. intros. apply H. right. assumption.
Qed.

Lemma pop_fresh_spec ns r : NoDup (map nt_reg ns) ->
  match pop_fresh ns r with
  | Some (h, ns') => ns' = map (drop_first r) ns /\ exists n f, In n ns /\ nt_reg n = r /\ nt_fresh n = (h, tt) :: f
  | None => forall n, In n ns -> nt_reg n = r -> nt_fresh n = []
  end.
Proof.
  induction ns as [|n t IH]; cbn [pop_fresh map]; [intros _ n []|].
  intros H. inversion H as [|? ? Hn Ht]; subst. destruct (nt_reg n =? r) eqn:E.
  - assert (Ho : forall x, In x t -> nt_reg x <> r).
    { intros x Hx Er. apply Hn. assert (nt_reg n = nt_reg x) as -> by lia. apply in_map. exact Hx. }
    destruct (nt_fresh n) as [|[h []] f] eqn:F.
    + intros x [<-|Hx] Hr; [exact F|]. exfalso. eapply Ho; eauto.
    + split.
      * rewrite (drop_first_other _ _ Ho). unfold drop_first. rewrite E, F. reflexivity.
      * exists n, f. split; [left; reflexivity|]. split; [lia|exact F].
  - specialize (IH Ht). destruct (pop_fresh t r) as [[h t']|].
    + destruct IH as (-> & x & f & Hx & Hr & Hf). split.
      * unfold drop_first at 2. rewrite E. reflexivity.
      * exists x, f. split; [right; exact Hx|auto].
    + intros x [<-|Hx] Hr; [lia|auto].
Qed.

Definition nt_inv (tr : list pcall) (d : pdb) (g : N) (n : notify) : Prop :=
  registration tr (nt_reg n) = Some (g, nt_event n) /\ om_sorted (nt_fresh n) /\
  (forall h, om_mem (nt_fresh n) h = waiting tr (nt_reg n) h) /\ nt_reg n < p_nreg d.

Record notif_inv (tr : list pcall) (d : pdb) : Prop := MkNi {
  ni_sorted : om_sorted (p_notif d);
  ni_nodup : forall g ns, om_get (p_notif d) g = Some ns -> NoDup (map nt_reg ns);
  ni_nt : forall g ns n, om_get (p_notif d) g = Some ns -> In n ns -> nt_inv tr d g n;
  ni_all : forall r g ev, registration tr r = Some (g, ev) ->
    exists ns n, om_get (p_notif d) g = Some ns /\ In n ns /\ nt_reg n = r /\ nt_event n = ev;
  ni_none : forall r h, registration tr r = None -> waiting tr r h = false }.

Lemma next_in_spec m r :
  (forall g ns, In (g, ns) m -> NoDup (map nt_reg ns)) ->
  (forall g1 ns1 n1 g2 ns2 n2, In (g1, ns1) m -> In n1 ns1 -> nt_reg n1 = r ->
      In (g2, ns2) m -> In n2 ns2 -> nt_reg n2 = r -> g1 = g2) ->
  NoDup (map fst m) ->
  match next_in m r with
  | Some (h, m') => m' = map (fun kl => (fst kl, map (drop_first r) (snd kl))) m /\
      exists g ns n f, In (g, ns) m /\ In n ns /\ nt_reg n = r /\ nt_fresh n = (h, tt) :: f
  | None => forall g ns n, In (g, ns) m -> In n ns -> nt_reg n = r -> nt_fresh n = []
  end.
Proof.
  induction m as [|[g ns] t IH]; intros Hn Hu Hk; cbn [next_in map]; [intros g ns n []|].
  cbn [map fst] in Hk. inversion Hk as [|? ? Hg Hk']; subst.
  pose proof (pop_fresh_spec ns r (Hn g ns (or_introl eq_refl))) as Hp.
  destruct (pop_fresh ns r) as [[h ns']|].
  - destruct Hp as (-> & n & f & Hi & Hr & Hf). split.
    + cbn [fst snd]. f_equal. rewrite <- map_id at 1. apply map_ext_in. intros [g2 ns2] H2. cbn [fst snd]. f_equal. symmetry.
      apply drop_first_other. intros n2 Hn2 Hr2. apply Hg.
      assert (g = g2) as -> by (eapply (Hu g ns n g2 ns2 n2); eauto; [left; reflexivity|right; exact H2]).
      apply in_map_iff. exists (g2, ns2). auto.
    + exists g, ns, n, f. split; [left; reflexivity|auto].
  - assert (IH' := IH (fun g ns H => Hn g ns (or_intror H))
       (fun g1 ns1 n1 g2 ns2 n2 A B C D E F => Hu g1 ns1 n1 g2 ns2 n2 (or_intror A) B C (or_intror D) E F) Hk'). clear IH.
    destruct (next_in t r) as [[h t']|].
    + destruct IH' as (-> & g2 & ns2 & n2 & f & H2 & Hi & Hr & Hf). split.
      * cbn [fst snd]. f_equal. f_equal. symmetry. apply drop_first_other. intros n Hin Hr'. apply Hg.
        assert (g = g2) as -> by (eapply (Hu g ns n g2 ns2 n2); eauto; [left; reflexivity|right; exact H2]).
        apply in_map_iff. exists (g2, ns2). auto.
      * exists g2, ns2, n2, f. split; [right; exact H2|auto].
    + intros g2 ns2 n2 [H2|H2] Hi Hr.
      * injection H2 as <- <-. auto.
      * eapply IH'; eauto.
Qed.

Lemma ni_in tr d : notif_inv tr d -> forall g ns, In (g, ns) (p_notif d) <-> om_get (p_notif d) g = Some ns.
Proof.
  intros Hi g ns. split; [apply om_in_get, (ni_sorted _ _ Hi)|apply om_get_in].
Qed.

Lemma next_spec tr d r : notif_inv tr d ->
  match next_in (p_notif d) r with
  | Some (h, m') => m' = map (fun kl => (fst kl, map (drop_first r) (snd kl))) (p_notif d) /\
      exists g ns n f, om_get (p_notif d) g = Some ns /\ In n ns /\ nt_reg n = r /\ nt_fresh n = (h, tt) :: f
  | None => forall g ns n, om_get (p_notif d) g = Some ns -> In n ns -> nt_reg n = r -> nt_fresh n = []
  end.
Proof.
  intros Hi. pose proof (ni_in _ _ Hi) as E.
  pose proof (next_in_spec (p_notif d) r) as H.
  assert (H1 : forall g ns, In (g, ns) (p_notif d) -> NoDup (map nt_reg ns)).
  { intros g ns Hin. apply E in Hin. eapply ni_nodup; eauto. }
  assert (H2 : forall g1 ns1 n1 g2 ns2 n2, In (g1, ns1) (p_notif d) -> In n1 ns1 -> nt_reg n1 = r ->
      In (g2, ns2) (p_notif d) -> In n2 ns2 -> nt_reg n2 = r -> g1 = g2).
  { intros g1 ns1 n1 g2 ns2 n2 A1 B1 C1 A2 B2 C2. apply E in A1, A2.
    destruct (ni_nt _ _ Hi _ _ _ A1 B1) as (R1 & _). destruct (ni_nt _ _ Hi _ _ _ A2 B2) as (R2 & _).
    rewrite C1 in R1. rewrite C2 in R2. congruence. }
  specialize (H H1 H2 (om_keys_nodup _ (ni_sorted _ _ Hi))).
  destruct (next_in (p_notif d) r) as [[h m']|].
  - destruct H as (-> & g & ns & n & f & A & B). split; [reflexivity|]. exists g, ns, n, f. split; [apply E; exact A|exact B].
  - intros g ns n A. apply E in A. eapply H; eauto.
Qed.

Lemma ni_same tr tr' d d' :
  notif_inv tr d -> p_notif d' = p_notif d -> p_nreg d' = p_nreg d ->
  (forall r, registration tr' r = registration tr r) -> (forall r h, waiting tr' r h = waiting tr r h) ->
  notif_inv tr' d'.
Proof.
  intros [A B C D E] En Er Hr Hw. split; rewrite ?En; auto.
  - intros g ns n H Hi. destruct (C g ns n H Hi) as (C1 & C2 & C3 & C4). unfold nt_inv. rewrite Er, Hr.
    repeat split; auto. intros h. rewrite Hw. apply C3.
  - intros r g ev. rewrite Hr. apply D.
  - intros r h. rewrite Hr, Hw. apply E.
Qed.

Lemma upd_same d h g f : p_notif (upd_inst d h g f) = p_notif d /\ p_nreg (upd_inst d h g f) = p_nreg d.
Proof. split; reflexivity. Qed.

Lemma pop_mem (h : N) (f : omap unit) h' : om_sorted ((h, tt) :: f) ->
  om_mem f h' = if h' =? h then false else om_mem ((h, tt) :: f) h'.
Proof.
  intros Hs. unfold om_mem. cbn [om_get]. destruct (h' =? h) eqn:E; [|reflexivity].
  assert (om_get f h' = None) as ->; [|reflexivity]. apply om_get_none. intros Hin.
  pose proof (om_sorted_hd _ _ _ _ Hs Hin). lia.
Qed.

Lemma ni_reg_lt tr d r x : notif_inv tr d -> registration tr r = Some x -> r < p_nreg d.
Proof.
  intros Hi H. destruct x as [g ev]. destruct (ni_all _ _ Hi _ _ _ H) as (ns & n & G & I & <- & _).
  destruct (ni_nt _ _ Hi _ _ _ G I) as (_ & _ & _ & L). exact L.
Qed.

Lemma hist_notif tr d : hist tr d -> notif_inv tr d.
Proof.
  induction 1 as [seed fuel|tr d o r d' H IH Hs].
  - split; cbn; try discriminate; auto. apply om_sorted_nil.
  - pose proof (hist_pinv _ _ H) as Hp.
    destruct o; cbn [pstep] in Hs; try (injection Hs as <- <-; eapply ni_same; [exact IH| | | |]; reflexivity).
    + destruct (install_effect _ _ _ _ _ _ Hp Hs) as [(key & evs & -> & He)|(-> & [(e & ->)|(-> & ->)])].
      2, 3: eapply ni_same; [exact IH| | | |]; reflexivity.
      destruct IH as [A B C D E]. destruct He as [_ _ Hn _ Hr _ _].
      assert (Hget : forall g' ns', om_get (p_notif d') g' = Some ns' ->
         exists ns, om_get (p_notif d) g' = Some ns /\ ns' = if g' =? g then map (add_fresh key) ns else ns).
      { intros g' ns'. rewrite Hn, om_get_upd. destruct (g' =? g) eqn:Eg; [|eauto].
        assert (g' = g) by lia. subst g'. destruct (om_get (p_notif d) g); [|discriminate]. cbn [option_map].
        intros X. injection X as <-. eauto. }
      split.
      * rewrite Hn. apply om_sorted_upd. exact A.
      * intros g' ns' G. apply Hget in G. destruct G as (ns & G & ->). destruct (g' =? g); [|eauto].
        rewrite map_map. rewrite (map_ext _ nt_reg) by (intros []; reflexivity). eauto.
      * intros g' ns' n' G Hin. apply Hget in G. destruct G as (ns & G & ->). unfold nt_inv. cbn [registration waiting]. rewrite Hr.
        destruct (g' =? g) eqn:Eg.
        -- assert (g' = g) by lia. subst g'. apply in_map_iff in Hin. destruct Hin as (n & <- & Hin). cbn [add_fresh nt_reg nt_event nt_fresh].
           destruct (C _ _ _ G Hin) as (C1 & C2 & C3 & C4). split; [exact C1|]. split; [apply om_sorted_set; exact C2|]. split; [|exact C4].
           intros h'. rewrite C1, N.eqb_refl, andb_true_r, <- C3. unfold om_mem. rewrite om_get_set. destruct (h' =? key); reflexivity.
        -- destruct (C _ _ _ G Hin) as (C1 & C2 & C3 & C4). split; [exact C1|]. split; [exact C2|]. split; [|exact C4].
           intros h'. rewrite C1. assert (g =? g' = false) as -> by lia. rewrite andb_false_r. apply C3.
      * intros r g' ev. cbn [registration]. intros X. apply D in X. destruct X as (ns & n & G & Hin & E1 & E2).
        rewrite Hn, om_get_upd. destruct (g' =? g) eqn:Eg.
        -- assert (g' = g) by lia. subst g'. rewrite G. cbn [option_map]. eexists _, (add_fresh key n).
           split; [reflexivity|]. split; [apply in_map; exact Hin|]. cbn. auto.
        -- exists ns, n. auto.
      * intros r h'. cbn [registration waiting]. intros X. rewrite X, andb_false_r. cbn [orb]. apply E. exact X.
    + destruct (uninstall_effect _ _ _ _ _ _ Hp Hs) as [(-> & He)|(-> & (e & ->))].
      2: eapply ni_same; [exact IH| | | |]; reflexivity.
      destruct (re_rest _ _ _ _ _ He) as (R1 & _ & _ & R2). eapply ni_same; [exact IH|exact R1|exact R2|reflexivity|reflexivity].
    + destruct (open_effect _ _ _ _ _ _ _ _ Hs) as [->|(f & _ & ->)]; eapply ni_same; [exact IH| | | | |exact IH| | | |]; reflexivity.
    + destruct (close_effect _ _ _ _ _ _ _ _ Hs) as [->|(f & ->)]; eapply ni_same; [exact IH| | | | |exact IH| | | |]; reflexivity.
    + unfold register_notify in Hs. injection Hs as <- <-.
      pose proof (fun x => ni_reg_lt tr d (p_nreg d) x IH) as Hnr.
      assert (Hnone : registration tr (p_nreg d) = None).
      { destruct (registration tr (p_nreg d)) eqn:X; [|reflexivity]. specialize (Hnr _ eq_refl). lia. }
      destruct IH as [A B C D E].
      set (n0 := MkN ev (p_nreg d) []).
      set (m := match om_get (p_notif d) g with Some _ => om_upd (p_notif d) g (fun l => l ++ [n0]) | None => om_set (p_notif d) g [n0] end).
      assert (Hm : forall g', om_get m g' = if g' =? g then Some (match om_get (p_notif d) g with Some l => l | None => [] end ++ [n0]) else om_get (p_notif d) g').
      { intros g'. unfold m. destruct (om_get (p_notif d) g) eqn:G; [rewrite om_get_upd, G|rewrite om_get_set]; destruct (g' =? g); reflexivity. }
      assert (Hold : forall n ns g', om_get (p_notif d) g' = Some ns -> In n ns ->
         nt_inv ((ORegister g ev, OutReg (p_nreg d)) :: tr) (MkP (p_seed d) (p_fuel d) (p_handles d) m (p_hash d) (p_next d) (p_nreg d + 1)) g' n).
      { intros n ns g' G Hin. destruct (C _ _ _ G Hin) as (C1 & C2 & C3 & C4). unfold nt_inv. cbn [registration waiting p_nreg].
        destruct (nt_reg n =? p_nreg d) eqn:Er; [lia|]. repeat split; auto. lia. }
      assert (Hnew : nt_inv ((ORegister g ev, OutReg (p_nreg d)) :: tr) (MkP (p_seed d) (p_fuel d) (p_handles d) m (p_hash d) (p_next d) (p_nreg d + 1)) g n0).
      { unfold nt_inv. cbn [registration waiting p_nreg n0 nt_reg nt_fresh nt_event]. rewrite N.eqb_refl.
        split; [reflexivity|]. split; [apply om_sorted_nil|]. split; [|lia]. intros h. symmetry. apply E. exact Hnone. }
      split; cbn [p_notif].
      * unfold m. destruct (om_get (p_notif d) g); [apply om_sorted_upd|apply om_sorted_set]; exact A.
      * intros g' ns'. rewrite Hm. destruct (g' =? g) eqn:Eg; [|apply B]. intros X. injection X as <-.
        rewrite map_app. cbn [map]. destruct (om_get (p_notif d) g) as [ns|] eqn:G.
        -- cbn [n0 nt_reg]. pose proof (B _ _ G) as Hnd.
           assert (Hni : ~ In (p_nreg d) (map nt_reg ns)).
           { intros Hin. apply in_map_iff in Hin. destruct Hin as (n & En & Hin). destruct (C _ _ _ G Hin) as (_ & _ & _ & L). lia. }
           clear - Hnd Hni. induction (map nt_reg ns) as [|x t IH]; cbn [app]; [constructor; [auto|constructor]|].
           inversion Hnd; subst. constructor; [|apply IH; [assumption|intros Hx; apply Hni; right; exact Hx]].
           intros Hx. apply in_app_or in Hx. destruct Hx as [Hx|[Hx|[]]]; [auto|]. apply Hni. left. congruence.
        -- cbn [map app]. constructor; [auto|constructor].
      * intros g' ns' n. rewrite Hm. destruct (g' =? g) eqn:Eg; [|intros G Hin; eapply Hold; eauto].
        assert (g' = g) by lia. subst g'. intros X Hin. injection X as <-. apply in_app_or in Hin. destruct Hin as [Hin|[<-|[]]]; [|exact Hnew].
        destruct (om_get (p_notif d) g) as [ns|] eqn:G; [|contradiction]. eapply Hold; eauto.
      * intros r g' ev'. cbn [registration]. destruct (r =? p_nreg d) eqn:Er.
        -- intros X. injection X as <- <-. assert (r = p_nreg d) by lia. subst r. eexists _, n0. rewrite Hm, N.eqb_refl.
           split; [reflexivity|]. split; [apply in_or_app; right; left; reflexivity|]. split; reflexivity.
        -- intros X. apply D in X. destruct X as (ns & n & G & Hin & E1 & E2). rewrite Hm. destruct (g' =? g) eqn:Eg.
           ++ assert (g' = g) by lia. subst g'. rewrite G. eexists _, n. split; [reflexivity|]. split; [apply in_or_app; left; exact Hin|auto].
           ++ exists ns, n. auto.
      * intros r h. cbn [registration waiting]. destruct (r =? p_nreg d); [discriminate|]. apply E.
    + injection Hs as <- <-. destruct IH as [A B C D E].
      destruct (unregister_same evs d) as (_ & _ & _ & Hr). pose proof (unregister_notif evs d) as Hn.
      assert (Hget : forall g ns', om_get (p_notif (unregister_events d evs)) g = Some ns' ->
         exists ns, om_get (p_notif d) g = Some ns /\ ns' = filter (keep evs) ns).
      { intros g ns'. rewrite Hn, (om_get_map (filter (keep evs))). destruct (om_get (p_notif d) g); [|discriminate].
        cbn [option_map]. intros X. injection X as <-. eauto. }
      split.
      * rewrite Hn. apply (om_sorted_map (filter (keep evs))). exact A.
      * intros g ns' G. apply Hget in G. destruct G as (ns & G & ->). apply B in G. clear - G.
        induction ns as [|n t IH]; cbn [filter map]; [constructor|]. cbn [map] in G. inversion G; subst.
        destruct (keep evs n); [|auto]. cbn [map]. constructor; [|auto]. intros Hin. apply H1.
        apply in_map_iff in Hin. destruct Hin as (x & <- & Hx). apply filter_In in Hx. apply in_map, Hx.
      * intros g ns' n G Hin. apply Hget in G. destruct G as (ns & G & ->). apply filter_In in Hin. destruct Hin as [Hin Hk].
        destruct (C _ _ _ G Hin) as (C1 & C2 & C3 & C4). unfold nt_inv. cbn [registration waiting]. rewrite C1.
        unfold keep in Hk. destruct (existsb (N.eqb (nt_event n)) evs) eqn:Ek; [discriminate|]. rewrite Hr. auto.
      * intros r g ev. cbn [registration]. destruct (registration tr r) as [[g0 ev0]|] eqn:X; [|discriminate].
        destruct (existsb (N.eqb ev0) evs) eqn:Ek; [discriminate|]. intros Y. injection Y as -> ->.
        destruct (D _ _ _ X) as (ns & n & G & Hin & E1 & E2). rewrite Hn, (om_get_map (filter (keep evs))), G. cbn [option_map].
        eexists _, n. split; [reflexivity|]. split; [|auto]. apply filter_In. split; [exact Hin|]. unfold keep. rewrite E2, Ek. reflexivity.
      * intros r h Hx. cbn [waiting]. rewrite Hx. reflexivity.
    + pose proof (next_spec tr d r0 IH) as Hnx. unfold next_handle in Hs.
      destruct (next_in (p_notif d) r0) as [[h m']|].
      2: { injection Hs as <- <-. eapply ni_same; [exact IH| | | |]; reflexivity. }
      injection Hs as <- <-. destruct Hnx as (-> & g1 & ns1 & n1 & f1 & G1 & I1 & R1 & F1). destruct IH as [A B C D E].
      assert (Hget : forall g ns', om_get (map (fun kl => (fst kl, map (drop_first r0) (snd kl))) (p_notif d)) g = Some ns' ->
         exists ns, om_get (p_notif d) g = Some ns /\ ns' = map (drop_first r0) ns).
      { intros g ns'. rewrite (om_get_map (map (drop_first r0))). destruct (om_get (p_notif d) g); [|discriminate].
        cbn [option_map]. intros X. injection X as <-. eauto. }
      assert (Hreg : forall n, nt_reg (drop_first r0 n) = nt_reg n) by (intros n; unfold drop_first; destruct (nt_reg n =? r0); reflexivity).
      assert (Hev : forall n, nt_event (drop_first r0 n) = nt_event n) by (intros n; unfold drop_first; destruct (nt_reg n =? r0); reflexivity).
      split; cbn [p_notif set_notif].
      * apply (om_sorted_map (map (drop_first r0))). exact A.
      * intros g ns' G. apply Hget in G. destruct G as (ns & G & ->). rewrite map_map, (map_ext _ nt_reg) by exact Hreg. eauto.
      * intros g ns' n' G Hin. apply Hget in G. destruct G as (ns & G & ->). apply in_map_iff in Hin. destruct Hin as (n & <- & Hin).
        destruct (C _ _ _ G Hin) as (C1 & C2 & C3 & C4). unfold nt_inv. cbn [registration waiting p_nreg set_notif]. rewrite Hreg, Hev.
        split; [exact C1|]. unfold drop_first. destruct (nt_reg n =? r0) eqn:Er.
        -- cbn [nt_fresh]. assert (Heq : nt_fresh n = (h, tt) :: f1).
           { destruct (C _ _ _ G1 I1) as (D1 & D2 & D3 & D4). assert (En : nt_reg n = nt_reg n1) by lia.
             assert (g = g1) by (rewrite En in C1; congruence). subst g1. rewrite G in G1. injection G1 as <-.
             assert (n = n1) as ->; [|exact F1]. pose proof (B _ _ G) as Hnd. clear - Hnd Hin I1 En.
             induction ns as [|x t IH]; [contradiction|]. cbn [map] in Hnd. inversion Hnd; subst.
             destruct Hin as [<-|Hin], I1 as [<-|I1]; auto; exfalso; apply H1; [rewrite En|rewrite <- En]; apply in_map; assumption. }
           rewrite Heq in *. cbn [tl]. split; [eapply om_sorted_tl; exact C2|]. split; [|exact C4].
           intros h'. rewrite (pop_mem h f1 h' C2). cbn [andb]. destruct (h' =? h); [reflexivity|]. apply C3.
        -- split; [exact C2|]. split; [|exact C4]. cbn [andb]. exact C3.
      * intros r g ev. cbn [registration]. intros X. destruct (D _ _ _ X) as (ns & n & G & Hin & E1 & E2).
        rewrite (om_get_map (map (drop_first r0))), G. cbn [option_map]. eexists _, (drop_first r0 n). split; [reflexivity|].
        split; [apply in_map; exact Hin|]. rewrite Hreg, Hev. auto.
      * intros r h'. cbn [registration waiting]. intros X. destruct ((r =? r0) && (h' =? h)); [reflexivity|]. apply E. exact X.
Qed.

Lemma next_handle_spec tr d r : hist tr d ->
  match fst (next_handle d r) with
  | Some h => waiting tr r h = true /\ forall h', waiting tr r h' = true -> h <= h'
  | None => forall h, waiting tr r h = false
  end.
Proof.
  intros H. pose proof (hist_notif _ _ H) as Hi. pose proof (next_spec _ _ r Hi) as Hn. unfold next_handle.
  destruct (next_in (p_notif d) r) as [[h m']|]; cbn [fst].
  - destruct Hn as (_ & g & ns & n & f & G & Hin & Hr & Hf). destruct (ni_nt _ _ Hi _ _ _ G Hin) as (_ & S & W & _).
    rewrite Hr, Hf in *. split.
    + rewrite <- W. unfold om_mem. cbn [om_get]. rewrite N.eqb_refl. reflexivity.
    + intros h'. rewrite <- W. rewrite om_mem_key. cbn [om_keys map fst In]. intros [->|Hk]; [lia|].
      pose proof (om_sorted_hd _ _ _ _ S Hk). lia.
  - intros h. destruct (registration tr r) as [[g ev]|] eqn:X; [|apply (ni_none _ _ Hi); exact X].
    destruct (ni_all _ _ Hi _ _ _ X) as (ns & n & G & Hin & E1 & E2). pose proof (Hn _ _ _ G Hin E1) as Hf.
    destruct (ni_nt _ _ Hi _ _ _ G Hin) as (_ & _ & W & _). rewrite <- E1, <- W, Hf. reflexivity.
Qed.

(** The events reported by an install. *)
Lemma events_spec tr d g : hist tr d ->
  forall ev, In ev (events_of d g) <-> exists r, registration tr r = Some (g, ev).
Proof.
  intros H ev. pose proof (hist_notif _ _ H) as Hi. unfold events_of. split.
  - destruct (om_get (p_notif d) g) as [ns|] eqn:G; [|intros []]. intros Hin. apply in_map_iff in Hin.
    destruct Hin as (n & <- & Hin). exists (nt_reg n). destruct (ni_nt _ _ Hi _ _ _ G Hin) as (R & _). exact R.
  - intros (r & X). destruct (ni_all _ _ Hi _ _ _ X) as (ns & n & G & Hin & E1 & E2). rewrite G. rewrite <- E2.
    apply in_map. exact Hin.
Qed.
