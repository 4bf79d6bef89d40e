(** Invariants of the protocol database over histories. *)
From Coq Require Import Sorted.
From Verif Require Import Base.Prelude Base.Omap Protocol.Model Protocol.Spec.
Local Open Scope N_scope.

Lemma oeqb_eq a b : oeqb a b = true <-> a = b.
Proof.
  destruct a, b; cbn [oeqb]; split; intros H; try discriminate; auto.
  - f_equal. lia.
  - injection H as ->. apply N.eqb_refl.
Qed.
Lemma oeqb_refl a : oeqb a a = true.
Proof. apply oeqb_eq. reflexivity. Qed.

Record pinv (d : pdb) : Prop := MkPinv {
  pv_hs : om_sorted (p_handles d);
  pv_ps : forall h hd, om_get (p_handles d) h = Some hd -> om_sorted (h_prots hd) /\ h_prots hd <> [];
  pv_nz : om_get (p_handles d) 0 = None;
  pv_next : 1 <= p_next d;
  pv_lt : p_hash d = false -> forall h, om_get (p_handles d) h <> None -> h < p_next d;
  pv_ord : forall h hd, om_get (p_handles d) h = Some hd -> h_order hd <= p_next d }.

Lemma find_key_spec fuel hs st nh k nh' :
  find_key fuel hs st nh = Some (k, nh') -> k <> 0 /\ om_get hs k = None /\ nh <= nh'.
Proof.
  revert st nh. induction fuel as [|f IH]; intros st nh; cbn [find_key];
    destruct ((st =? 0) || om_mem hs st) eqn:E; try discriminate.
  - intros H. injection H as <- <-. unfold om_mem in E. destruct (om_get hs st); [lia|]. split; [lia|]. split; [auto|lia].
  - intros H. apply IH in H. destruct H as (A & B & C). split; [auto|]. split; [auto|]. lia.
  - intros H. injection H as <- <-. unfold om_mem in E. destruct (om_get hs st); [lia|]. split; [lia|]. split; [auto|lia].
Qed.

Lemma new_key_spec d k nh :
  pinv d -> new_key d = Some (k, nh) ->
  k <> 0 /\ om_get (p_handles d) k = None /\ p_next d < nh /\ (p_hash d = false -> k < nh).
Proof.
  intros [] H. unfold new_key in H. destruct (p_hash d) eqn:E.
  - apply find_key_spec in H. destruct H as (A & B & C). repeat split; auto; try lia.
  - injection H as <- <-. repeat split; try lia.
    destruct (om_get (p_handles d) (p_next d)) eqn:G; [|reflexivity].
    assert (p_next d < p_next d) by (apply pv_lt0; [reflexivity|congruence]). lia.
Qed.

(** The effect of an install. *)
Definition events_of (d : pdb) (g : N) : list N :=
  match om_get (p_notif d) g with Some ns => map nt_event ns | None => [] end.

Record installed_effect (d : pdb) (h : option N) (g i : N) (key : N) (evs : list N) (d' : pdb) : Prop := MkIE {
  ie_free : get_inst d key g = None;
  ie_evs : evs = events_of d g;
  ie_notif : p_notif d' = om_upd (p_notif d) g (map (add_fresh key));
  ie_hash : p_hash d' = p_hash d;
  ie_nreg : p_nreg d' = p_nreg d;
  ie_sorted : om_sorted (p_handles d');
  ie_how : exists ord ps,
    (forall h', om_get (p_handles d') h' =
       if h' =? key then Some (MkH ord (om_set ps g (MkI i false false []))) else om_get (p_handles d) h') /\
    match h with
    | Some h => h = key /\ om_get (p_handles d) key = Some (MkH ord ps) /\ p_next d' = p_next d
    | None => key <> 0 /\ om_get (p_handles d) key = None /\ ps = [] /\ ord = p_next d' /\ p_next d < p_next d' /\
              (p_hash d = false -> key < p_next d')
    end }.

Lemma events_upd d g key :
  match om_get (om_upd (p_notif d) g (map (add_fresh key))) g with Some ns => map nt_event ns | None => [] end
  = events_of d g.
Proof.
  unfold events_of. rewrite om_get_upd, N.eqb_refl.
  destruct (om_get (p_notif d) g) as [ns|]; cbn [option_map]; [|reflexivity].
  rewrite map_map. apply map_ext. intros []; reflexivity.
Qed.

Lemma install_effect d h g i r d' :
  pinv d -> install d h g i = (r, d') ->
  (exists key evs, r = OutHandle key evs /\ installed_effect d h g i key evs d') \/
  (d' = d /\ ((exists e, r = OutErr e) \/ (h = None /\ r = OutHang))).
Proof.
  intros Hp H. unfold install in H. destruct h as [h|].
  - unfold validate in H. destruct (om_mem (p_handles d) h) eqn:E; [|injection H as <- <-; right; eauto].
    unfold install_on in H. destruct (om_get (p_handles d) h) as [[ord ps]|] eqn:G; [|injection H as <- <-; right; eauto].
    cbn [h_prots] in H. destruct (om_mem ps g) eqn:M; [injection H as <- <-; right; eauto|].
    unfold notify_install in H. injection H as <- <-. left. eexists _, _. split; [reflexivity|].
    split; cbn [p_notif p_handles p_hash p_next p_nreg set_notif set_handles]; auto.
    + unfold get_inst. rewrite G. cbn [h_prots]. unfold om_mem in M. destruct (om_get ps g); congruence.
    + apply events_upd.
    + apply om_sorted_upd. apply pv_hs, Hp.
    + exists ord, ps. split; [|auto].
      intros h'. rewrite om_get_upd, G. cbn [option_map h_order h_prots].
      destruct (h' =? h); reflexivity.
  - destruct (new_key d) as [[key nh]|] eqn:K; [|injection H as <- <-; right; eauto].
    apply new_key_spec in K; [|exact Hp]. destruct K as (K1 & K2 & K3 & K4).
    unfold install_on in H. cbn [p_handles] in H. rewrite om_get_set, N.eqb_refl in H.
    cbn [om_mem h_prots] in H. unfold om_mem in H. cbn [om_get] in H.
    unfold notify_install in H. injection H as <- <-. left. eexists _, _. split; [reflexivity|].
    split; cbn [p_notif p_handles p_hash p_next p_nreg set_notif set_handles]; auto.
    + unfold get_inst. rewrite K2. reflexivity.
    + apply events_upd.
    + apply om_sorted_upd, om_sorted_set. apply pv_hs, Hp.
    + exists nh, []. split; [|auto 10].
      intros h'. rewrite om_get_upd, !om_get_set, N.eqb_refl. cbn [option_map h_order h_prots].
      destruct (h' =? key); reflexivity.
Qed.

Lemma ie_get_inst d h g i key evs d' h' g' :
  installed_effect d h g i key evs d' ->
  get_inst d' h' g' = if (h' =? key) && (g' =? g) then Some (MkI i false false []) else get_inst d h' g'.
Proof.
  intros [Hf _ _ _ _ _ (ord & ps & Hg & Hc)]. unfold get_inst at 1. rewrite Hg.
  destruct (h' =? key) eqn:E; cbn [andb]; [|reflexivity].
  assert (h' = key) by lia. subst h'. cbn [h_prots]. rewrite om_get_set.
  destruct (g' =? g); [reflexivity|].
  unfold get_inst. destruct h as [h|].
  - destruct Hc as (_ & -> & _). reflexivity.
  - destruct Hc as (_ & -> & -> & _). reflexivity.
Qed.

Lemma om_set_nonnil {A} (m : omap A) k v : om_set m k v <> [].
Proof. destruct m as [|[a b] t]; cbn [om_set]; [discriminate|]. destruct (k <? a); [discriminate|]. destruct (k =? a); discriminate. Qed.

Lemma ie_pinv d h g i key evs d' : pinv d -> installed_effect d h g i key evs d' -> pinv d'.
Proof.
  intros Hp [Hf _ _ Hh _ Hs (ord & ps & Hg & Hc)]. split; auto.
  - intros h' hd. rewrite Hg. destruct (h' =? key) eqn:E; [|apply pv_ps, Hp].
    intros H. injection H as <-. cbn [h_prots]. split; [|apply om_set_nonnil].
    apply om_sorted_set. destruct h as [h|].
    + destruct Hc as (_ & Hc & _). apply (pv_ps _ Hp) in Hc. apply Hc.
    + destruct Hc as (_ & _ & -> & _). apply om_sorted_nil.
  - rewrite Hg. destruct (0 =? key) eqn:E; [|apply pv_nz, Hp].
    assert (key = 0) by lia. subst key. destruct h as [h|].
    + destruct Hc as (_ & Hc & _). rewrite (pv_nz _ Hp) in Hc. discriminate.
    + destruct Hc as (Hc & _). congruence.
  - pose proof (pv_next _ Hp). destruct h as [h|]; [destruct Hc as (_ & _ & ->); lia|]. destruct Hc as (_ & _ & _ & _ & Hc & _). lia.
  - rewrite Hh. intros Hf' h'. rewrite Hg. pose proof (pv_lt _ Hp Hf') as Hl. destruct (h' =? key) eqn:E.
    + intros _. assert (h' = key) by lia. subst h'. destruct h as [h|].
      * destruct Hc as (_ & Hc & ->). apply Hl. congruence.
      * destruct Hc as (_ & _ & _ & _ & _ & Hc). auto.
    + intros Hn. specialize (Hl _ Hn). destruct h as [h|]; [destruct Hc as (_ & _ & ->); lia|].
      destruct Hc as (_ & _ & _ & _ & Hc & _). lia.
  - intros h' hd. rewrite Hg. destruct (h' =? key) eqn:E.
    + intros H. injection H as <-. cbn [h_order]. destruct h as [h|].
      * destruct Hc as (_ & Hc & ->). apply (pv_ord _ Hp) in Hc. exact Hc.
      * destruct Hc as (_ & _ & _ & -> & _). lia.
    + intros H. apply (pv_ord _ Hp) in H. destruct h as [h|]; [destruct Hc as (_ & _ & ->); lia|].
      destruct Hc as (_ & _ & _ & _ & Hc & _). lia.
Qed.

(** The effect of an uninstall. *)
Record removed_effect (d : pdb) (h g i : N) (d' : pdb) : Prop := MkRE {
  re_inst : exists it, get_inst d h g = Some it /\ i_iface it = i /\ i_usage it = [];
  re_rest : p_notif d' = p_notif d /\ p_hash d' = p_hash d /\ p_next d' = p_next d /\ p_nreg d' = p_nreg d;
  re_sorted : om_sorted (p_handles d');
  re_get : forall h' g', get_inst d' h' g' = if (h' =? h) && (g' =? g) then None else get_inst d h' g';
  re_hnd : forall h' hd', om_get (p_handles d') h' = Some hd' ->
    exists hd, om_get (p_handles d) h' = Some hd /\ h_order hd' = h_order hd /\ om_sorted (h_prots hd') /\ h_prots hd' <> [] }.

Lemma uninstall_effect d h g i r d' :
  pinv d -> uninstall d h g i = (r, d') ->
  (r = OutUnit /\ removed_effect d h g i d') \/ (d' = d /\ exists e, r = OutErr e).
Proof.
  intros Hp H. unfold uninstall in H.
  destruct (om_get (p_handles d) h) as [[ord ps]|] eqn:G; [|injection H as <- <-; right; eauto].
  cbn [h_prots] in H. destruct (om_get ps g) as [it|] eqn:Gi; [|injection H as <- <-; right; eauto].
  destruct (i_iface it =? i) eqn:Ei; cbn [negb] in H; [|injection H as <- <-; right; eauto].
  destruct (i_usage it) eqn:Eu; [|injection H as <- <-; right; eauto].
  injection H as <- <-. left. split; [reflexivity|].
  destruct (pv_ps _ Hp _ _ G) as [Hps _]. cbn [h_prots] in Hps.
  assert (Hget : forall h' g', get_inst (set_handles d
      (match om_del ps g with [] => om_del (om_upd (p_handles d) h (fun hd => MkH (h_order hd) (om_del ps g))) h
       | _ => om_upd (p_handles d) h (fun hd => MkH (h_order hd) (om_del ps g)) end)) h' g'
      = if (h' =? h) && (g' =? g) then None else get_inst d h' g').
  { intros h' g'. unfold get_inst. cbn [p_handles set_handles].
    assert (Hr : om_get (p_handles d) h = Some (MkH ord ps)) by exact G.
    destruct (h' =? h) eqn:Eh; cbn [andb].
    - assert (h' = h) by lia. subst h'. rewrite Hr. cbn [h_prots].
      pose proof (om_get_del ps g g' Hps) as Hd.
      destruct (om_del ps g) as [|x t] eqn:Ed.
      + rewrite om_get_del by (apply om_sorted_upd, pv_hs, Hp). rewrite N.eqb_refl. cbn [om_get] in Hd. exact Hd.
      + rewrite om_get_upd, N.eqb_refl, Hr. cbn [option_map h_prots]. exact Hd.
    - destruct (om_del ps g) as [|x t] eqn:Ed.
      + rewrite om_get_del by (apply om_sorted_upd, pv_hs, Hp). rewrite Eh, om_get_upd, Eh. reflexivity.
      + rewrite om_get_upd, Eh. reflexivity. }
  split.
  - exists it. unfold get_inst. rewrite G. cbn [h_prots]. repeat split; auto. lia.
  - cbn [set_handles p_notif p_hash p_next p_nreg]. auto.
  - cbn [set_handles p_handles]. destruct (om_del ps g); [apply om_sorted_del|]; apply om_sorted_upd, pv_hs, Hp.
  - exact Hget.
  - intros h' hd'. cbn [set_handles p_handles].
    assert (Hsd : om_sorted (om_del ps g)) by (apply om_sorted_del; exact Hps).
    destruct (om_del ps g) as [|x t] eqn:Ed.
    + rewrite om_get_del by (apply om_sorted_upd, pv_hs, Hp). rewrite om_get_upd.
      destruct (h' =? h) eqn:E; [discriminate|].
      intros H. exists hd'. destruct (pv_ps _ Hp _ _ H). auto.
    + rewrite om_get_upd. destruct (h' =? h) eqn:E.
      * rewrite G. cbn [option_map]. intros H. injection H as <-. assert (h' = h) by lia. subst h'.
        eexists. split; [exact G|]. cbn [h_order h_prots]. repeat split; auto. discriminate.
      * intros H. exists hd'. destruct (pv_ps _ Hp _ _ H). auto.
Qed.

Lemma re_pinv d h g i d' : pinv d -> removed_effect d h g i d' -> pinv d'.
Proof.
  intros Hp [_ (Hn & Hh & Hx & Hr) Hs _ Hg]. split; auto.
  - intros h' hd' H. apply Hg in H. destruct H as (hd & _ & _ & A & B). auto.
  - destruct (om_get (p_handles d') 0) eqn:E; [|reflexivity]. apply Hg in E. destruct E as (hd & E & _).
    rewrite (pv_nz _ Hp) in E. discriminate.
  - rewrite Hx. apply pv_next, Hp.
  - rewrite Hh, Hx. intros Hf h' H. destruct (om_get (p_handles d') h') eqn:E; [|congruence].
    apply Hg in E. destruct E as (hd & E & _). apply (pv_lt _ Hp Hf). congruence.
  - intros h' hd' H. apply Hg in H. destruct H as (hd & H & -> & _). rewrite Hx. eapply pv_ord; eauto.
Qed.

(** The effect of an update of one instance. *)
Lemma upd_get_inst d h g f h' g' :
  get_inst (upd_inst d h g f) h' g' =
  if (h' =? h) && (g' =? g) then option_map f (get_inst d h g) else get_inst d h' g'.
Proof.
  unfold get_inst, upd_inst. cbn [p_handles set_handles]. rewrite om_get_upd.
  destruct (h' =? h) eqn:E; cbn [andb]; [|reflexivity].
  assert (h' = h) by lia. subst h'.
  destruct (om_get (p_handles d) h) as [[ord ps]|]; cbn [option_map h_prots]; [|destruct (g' =? g); reflexivity].
  rewrite om_get_upd. destruct (g' =? g) eqn:Eg; reflexivity.
Qed.

Lemma upd_hnd d h g f h' hd' :
  om_get (p_handles (upd_inst d h g f)) h' = Some hd' ->
  exists hd, om_get (p_handles d) h' = Some hd /\ h_order hd' = h_order hd /\ om_keys (h_prots hd') = om_keys (h_prots hd).
Proof.
  unfold upd_inst. cbn [p_handles set_handles]. rewrite om_get_upd. destruct (h' =? h) eqn:E; [|eauto].
  assert (h' = h) by lia. subst h'.
  destruct (om_get (p_handles d) h) as [[ord ps]|]; cbn [option_map]; [|discriminate].
  intros H. injection H as <-. eexists. split; [reflexivity|]. cbn [h_order h_prots]. split; [reflexivity|]. apply om_keys_upd.
Qed.

Lemma upd_hnd_dom d h g f h' :
  om_get (p_handles (upd_inst d h g f)) h' = None <-> om_get (p_handles d) h' = None.
Proof.
  unfold upd_inst. cbn [p_handles set_handles]. rewrite om_get_upd. destruct (h' =? h) eqn:E; [|tauto].
  assert (h' = h) by lia. subst h'. destruct (om_get (p_handles d) h); cbn [option_map]; split; congruence.
Qed.

Lemma upd_pinv d h g f : pinv d -> pinv (upd_inst d h g f).
Proof.
  intros Hp. split.
  - unfold upd_inst. cbn [p_handles set_handles]. apply om_sorted_upd, pv_hs, Hp.
  - intros h' hd' H. apply upd_hnd in H. destruct H as (hd & H & _ & K).
    destruct (pv_ps _ Hp _ _ H) as [A B]. unfold om_sorted in *. rewrite K. split; [exact A|].
    intros E0. rewrite E0 in K. destruct (h_prots hd); [congruence|discriminate K].
  - apply upd_hnd_dom, pv_nz, Hp.
  - cbn [upd_inst set_handles p_next]. apply pv_next, Hp.
  - cbn [upd_inst set_handles p_next p_hash]. intros Hf h' H. apply (pv_lt _ Hp Hf).
    intros E. apply H. apply (upd_hnd_dom d h g f). exact E.
  - intros h' hd' H. apply upd_hnd in H. destruct H as (hd & H & -> & _).
    cbn [upd_inst set_handles p_next]. eapply pv_ord; eauto.
Qed.

Lemma open_effect d h g a c attr r d' :
  open_usage d h g a c attr = (r, d') ->
  d' = d \/ (exists f, r = OutUnit /\ d' = upd_inst d h g f).
Proof.
  unfold open_usage. intros H.
  destruct (validate d h), (ovalidate d a), (ovalidate d c); try (injection H as <- <-; left; reflexivity).
  destruct (get_inst d h g) as [it|]; [|injection H as <- <-; auto].
  destruct (usage_new h a c attr); try (injection H as <- <-; auto; fail).
  destruct (i_drv it && _); [injection H as <- <-; auto|].
  destruct (negb (i_exc it) && _); [injection H as <- <-; right; eauto|].
  destruct ((attr =? OPEN_BY_DRIVER) || _ || _).
  - destruct (i_exc it || i_drv it); [injection H as <- <-; auto|].
    destruct (is_none a); injection H as <- <-; eauto.
  - destruct (_ || _ || _ || _); [|injection H as <- <-; auto].
    destruct (is_none a); injection H as <- <-; eauto.
Qed.

Lemma close_effect d h g a c attr r d' :
  close_usage d h g a c attr = (r, d') -> d' = d \/ (exists f, d' = upd_inst d h g f).
Proof.
  unfold close_usage. intros H.
  destruct (validate d h), (ovalidate d a), (ovalidate d c); try (injection H as <- <-; left; reflexivity).
  destruct (get_inst d h g) as [it|]; [|injection H as <- <-; auto].
  destruct (close_loop _ _ it false) as [it' b]. injection H as <- <-. right. eauto.
Qed.

Lemma handles_pinv d d' :
  p_handles d' = p_handles d -> p_next d' = p_next d -> (p_hash d' = false -> p_hash d = false) -> pinv d -> pinv d'.
Proof. intros E1 E2 E3 []. split; rewrite ?E1, ?E2; auto. Qed.

Lemma next_handle_same d r : p_handles (snd (next_handle d r)) = p_handles d /\
  p_next (snd (next_handle d r)) = p_next d /\ p_hash (snd (next_handle d r)) = p_hash d /\ p_nreg (snd (next_handle d r)) = p_nreg d.
Proof. unfold next_handle. destruct (next_in (p_notif d) r) as [[? ?]|]; cbn; auto. Qed.

Lemma unregister_same evs : forall d, p_handles (unregister_events d evs) = p_handles d /\
  p_next (unregister_events d evs) = p_next d /\ p_hash (unregister_events d evs) = p_hash d /\
  p_nreg (unregister_events d evs) = p_nreg d.
Proof.
  induction evs as [|e t IH]; intros d; cbn [unregister_events fold_left]; [auto|].
  change (fold_left unregister_event t (unregister_event d e)) with (unregister_events (unregister_event d e) t).
  destruct (IH (unregister_event d e)) as (-> & -> & -> & ->). cbn. auto.
Qed.

Lemma pstep_pinv d o r d' : pinv d -> pstep d o = (r, d') -> pinv d'.
Proof.
  intros Hp H. destruct o; cbn [pstep] in H; try (injection H as <- <-; exact Hp).
  - destruct (install_effect _ _ _ _ _ _ Hp H) as [(key & evs & _ & He)|(-> & _)]; [eapply ie_pinv; eauto|exact Hp].
  - destruct (uninstall_effect _ _ _ _ _ _ Hp H) as [(_ & He)|(-> & _)]; [eapply re_pinv; eauto|exact Hp].
  - destruct (open_effect _ _ _ _ _ _ _ _ H) as [->|(f & _ & ->)]; [exact Hp|apply upd_pinv; exact Hp].
  - destruct (close_effect _ _ _ _ _ _ _ _ H) as [->|(f & ->)]; [exact Hp|apply upd_pinv; exact Hp].
  - unfold register_notify in H. injection H as <- <-. eapply handles_pinv; [| | |exact Hp]; auto.
  - injection H as <- <-. destruct (unregister_same evs d) as (A & B & C & _).
    eapply handles_pinv; eauto.
  - destruct (next_handle_same d r0) as (A & B & C & _). destruct (next_handle d r0) as [x y].
    injection H as <- <-. cbn [snd] in *. eapply handles_pinv; eauto.
  - injection H as <- <-. eapply handles_pinv; [| | |exact Hp]; auto. discriminate.
Qed.

Lemma hist_pinv tr d : hist tr d -> pinv d.
Proof.
  induction 1 as [seed fuel|tr d o r d' H IH Hs].
  - split; cbn; try discriminate; try lia; auto.
    + apply om_sorted_nil.
    + intros _ h E. congruence.
  - eapply pstep_pinv; eauto.
Qed.

(** ** Interfaces. *)
Lemma close_loop_iface n p it b : i_iface (fst (close_loop n p it b)) = i_iface it.
Proof.
  revert it b. induction n as [|n IH]; intros it b; cbn [close_loop]; [reflexivity|].
  destruct (remove_last p (i_usage it)) as [[u l]|]; [|reflexivity]. rewrite IH. reflexivity.
Qed.

Lemma open_iface d h g a c attr r d' h' g' :
  open_usage d h g a c attr = (r, d') -> option_map i_iface (get_inst d' h' g') = option_map i_iface (get_inst d h' g').
Proof.
  unfold open_usage. intros H.
  destruct (validate d h), (ovalidate d a), (ovalidate d c); try (injection H as <- <-; reflexivity).
  destruct (get_inst d h g) as [it|] eqn:G; [|injection H as <- <-; auto].
  assert (Hf : forall f, (forall x, i_iface (f x) = i_iface x) ->
     option_map i_iface (get_inst (upd_inst d h g f) h' g') = option_map i_iface (get_inst d h' g')).
  { intros f Hf. rewrite upd_get_inst. destruct ((h' =? h) && (g' =? g)) eqn:E; [|reflexivity].
    assert (h' = h) by lia. assert (g' = g) by lia. subst. rewrite G. cbn. rewrite Hf. reflexivity. }
  destruct (usage_new h a c attr); try (injection H as <- <-; auto; fail).
  destruct (i_drv it && _); [injection H as <- <-; auto|].
  destruct (negb (i_exc it) && _); [injection H as <- <-; apply Hf; reflexivity|].
  destruct ((attr =? OPEN_BY_DRIVER) || _ || _).
  - destruct (i_exc it || i_drv it); [injection H as <- <-; auto|].
    destruct (is_none a); injection H as <- <-; auto.
  - destruct (_ || _ || _ || _); [|injection H as <- <-; auto].
    destruct (is_none a); injection H as <- <-; auto.
Qed.

Lemma close_iface d h g a c attr r d' h' g' :
  close_usage d h g a c attr = (r, d') -> option_map i_iface (get_inst d' h' g') = option_map i_iface (get_inst d h' g').
Proof.
  unfold close_usage. intros H.
  destruct (validate d h), (ovalidate d a), (ovalidate d c); try (injection H as <- <-; reflexivity).
  destruct (get_inst d h g) as [it|] eqn:G; [|injection H as <- <-; auto].
  destruct (close_loop _ _ it false) as [it' b] eqn:L. injection H as <- <-.
  rewrite upd_get_inst. destruct ((h' =? h) && (g' =? g)) eqn:E; [|reflexivity].
  assert (h' = h) by lia. assert (g' = g) by lia. subst. rewrite G. cbn [option_map].
  pose proof (close_loop_iface (S (length (i_usage it))) (close_match a c attr) it false) as Hi.
  rewrite L in Hi. cbn [fst] in Hi. congruence.
Qed.

Lemma get_inst_handles d d' h g : p_handles d' = p_handles d -> get_inst d' h g = get_inst d h g.
Proof. unfold get_inst. intros ->. reflexivity. Qed.

Lemma hist_iface tr d : hist tr d -> forall h g, option_map i_iface (get_inst d h g) = installed tr h g.
Proof.
  induction 1 as [seed fuel|tr d o r d' H IH Hs]; intros h g; [reflexivity|].
  pose proof (hist_pinv _ _ H) as Hp.
  destruct o; cbn [pstep] in Hs; try (injection Hs as <- <-; cbn [installed]; apply IH).
  - destruct (install_effect _ _ _ _ _ _ Hp Hs) as [(key & evs & -> & He)|(-> & [(e & ->)|(_ & ->)])]; cbn [installed]; auto.
    rewrite (ie_get_inst _ _ _ _ _ _ _ h g He). destruct ((h =? key) && (g =? g0)); cbn [option_map i_iface]; auto.
  - destruct (uninstall_effect _ _ _ _ _ _ Hp Hs) as [(-> & He)|(-> & (e & ->))]; cbn [installed]; auto.
    rewrite (re_get _ _ _ _ _ He). destruct ((h =? h0) && (g =? g0)); cbn [option_map]; auto.
  - rewrite (open_iface _ _ _ _ _ _ _ _ h g Hs). cbn [installed]. apply IH.
  - rewrite (close_iface _ _ _ _ _ _ _ _ h g Hs). cbn [installed]. apply IH.
  - injection Hs as <- <-. rewrite (get_inst_handles d); [cbn [installed]; apply IH|apply unregister_same].
  - pose proof (next_handle_same d r0) as (A & _). destruct (next_handle d r0) as [x y]. injection Hs as <- <-. cbn [snd] in A.
    rewrite (get_inst_handles d _ _ _ A). cbn [installed]. apply IH.
Qed.

Lemma hist_live tr d h : hist tr d -> (om_get (p_handles d) h <> None <-> live tr h).
Proof.
  intros H. pose proof (hist_pinv _ _ H) as Hp. pose proof (hist_iface _ _ H h) as Hi. split.
  - intros Hn. destruct (om_get (p_handles d) h) as [hd|] eqn:G; [|congruence].
    destruct (pv_ps _ Hp _ _ G) as [_ Hne]. destruct (h_prots hd) as [|[g it] t] eqn:E; [congruence|].
    exists g, (i_iface it). rewrite <- Hi. unfold get_inst. rewrite G, E. cbn [om_get]. rewrite N.eqb_refl. reflexivity.
  - intros (g & i & Hg). rewrite <- Hi in Hg. unfold get_inst in Hg.
    destruct (om_get (p_handles d) h); [discriminate|discriminate].
Qed.
