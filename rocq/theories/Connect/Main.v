(** ConnectController: invariants, termination and the recursion over children. *)
From Coq Require Import Sorted Permutation.
From Verif Require Import Base.Prelude Base.Omap Protocol.Model Protocol.Spec Protocol.Proofs Protocol.Usage Protocol.Order Protocol.Services
  Protocol.SvcProofs Connect.Model Connect.Spec Connect.Proofs Connect.Sources.
Local Open Scope N_scope.

(** ** Invariants of the state under driver calls *)
Record closed (env : cenv) (I : cst -> Prop) : Prop := MkClosed {
  cl_log : forall s e, I s -> I (log s e);
  cl_platform : forall s p c prev, I s -> I (perform s (snd (ce_platform env s p c prev)));
  cl_family : forall s p, I s -> I (perform s (snd (ce_family env s p)));
  cl_bus : forall s p prev, I s -> I (perform s (snd (ce_bus env s p prev)));
  cl_auth : forall s p b, I s -> I (perform s (snd (ce_auth env s p b)));
  cl_supported : forall s b c dp, I s -> I (perform s (snd (ce_supported env s b c dp)));
  cl_start : forall s b c dp, I s -> I (perform s (snd (ce_start env s b c dp)));
  cl_stop : forall s b c k, I s -> I (perform s (snd (ce_stop env s b c k))) }.

Lemma reached_closed env : closed env reached.
Proof. split; intros; first [apply log_reached; assumption|apply perform_reached; assumption]. Qed.

Section invariant.
Context (env : cenv) (I : cst -> Prop) (C : closed env I).

Lemma get_drivers_inv f ev : (forall s p, I s -> I (perform s (snd (f s p)))) -> forall fuel s prev acc r s',
  I s -> get_drivers fuel f ev s prev acc = (r, s') -> I s'.
Proof.
  intros Hf. induction fuel as [|k IH]; intros s prev acc r s' H E; cbn [get_drivers] in E; [injection E as <- <-; exact H|].
  specialize (Hf s prev H). destruct (f s prev) as [x ops]. cbn [snd] in Hf.
  assert (H1 : I (log (perform s ops) (ev x))) by (apply (cl_log _ _ C); exact Hf).
  destruct x; [eapply IH; eauto|injection E as <- <-; exact H1].
Qed.
Lemma family_map_inv : forall hs s m r s', I s -> family_map env s hs m = (r, s') -> I s'.
Proof.
  induction hs as [|h t IH]; intros s m r s' H E; cbn [family_map] in E; [injection E as <- <-; exact H|].
  destruct (get_interface (c_db s) h FAMILY_OVERRIDE); try (eapply IH; eauto; fail).
  destruct (i =? 0); [injection E as <- <-; exact H|]. pose proof (cl_family _ _ C s i H) as F.
  destruct (ce_family env s i) as [v ops]. eapply IH; [|exact E]. apply (cl_log _ _ C). exact F.
Qed.
Lemma platform_inv fuel s c r s' : I s -> platform_bindings fuel env s c = (r, s') -> I s'.
Proof.
  unfold platform_bindings. intros H. destruct (locate_protocol _ _); try (intros E; injection E as <- <-; exact H).
  destruct (i =? 0); [intros E; injection E as <- <-; exact H|].
  destruct (get_drivers _ _ _ s 0 []) as [x s1] eqn:G. intros E.
  assert (s1 = s') by (destruct x; injection E as _ <-; reflexivity). subst s1.
  eapply get_drivers_inv; [|exact H|exact G]. intros. apply (cl_platform _ _ C). assumption.
Qed.
Lemma bus_inv fuel s c r s' : I s -> bus_bindings fuel env s c = (r, s') -> I s'.
Proof.
  unfold bus_bindings. intros H. destruct (get_interface _ _ _); try (intros E; injection E as <- <-; exact H).
  destruct (i =? 0); [intros E; injection E as <- <-; exact H|].
  destruct (get_drivers _ _ _ s 0 []) as [x s1] eqn:G. intros E.
  assert (s1 = s') by (destruct x; injection E as _ <-; reflexivity). subst s1.
  eapply get_drivers_inv; [|exact H|exact G]. intros. apply (cl_bus _ _ C). assumption.
Qed.
Lemma family_inv s r s' : I s -> family_bindings env s = (r, s') -> I s'.
Proof.
  unfold family_bindings. intros H. destruct (locate_handles _ _); try (intros E; injection E as <- <-; exact H).
  destruct (family_map env s l []) as [x s1] eqn:G. intros E.
  assert (s1 = s') by (destruct x; injection E as _ <-; reflexivity). subst s1. eapply family_map_inv; eauto.
Qed.
Lemma candidates_inv fuel s c drivers r s' : I s -> candidates fuel env s c drivers = (r, s') -> I s'.
Proof.
  unfold candidates. intros H E.
  destruct (platform_bindings fuel env s c) as [r2 s2] eqn:E2. apply platform_inv in E2; auto.
  destruct r2 as [l2| |]; try (injection E as <- <-; exact E2).
  destruct (family_bindings env s2) as [r3 s3] eqn:E3. apply family_inv in E3; auto.
  destruct r3 as [l3| |]; try (injection E as <- <-; exact E3).
  destruct (bus_bindings fuel env s3 c) as [r4 s4] eqn:E4. apply bus_inv in E4; auto.
  assert (s4 = s') by (destruct r4; injection E as _ <-; reflexivity). subst s4. exact E4.
Qed.
Lemma one_pass_inv c dp cands : forall s st one r s', I s -> one_pass env s c dp cands st one = (r, s') -> I s'.
Proof.
  induction cands as [|b t IH]; intros s st one r s' H E; cbn [one_pass] in E; [injection E as <- <-; exact H|].
  pose proof (cl_supported _ _ C s b c dp H) as F. destruct (ce_supported env s b c dp) as [sup ops]. cbn [snd] in F.
  assert (H1 : I (log (perform s ops) (ESupported b c dp sup))) by (apply (cl_log _ _ C); exact F).
  destruct sup; [|eapply IH; eauto]. revert E. set (s1 := log (perform s ops) (ESupported b c dp true)) in *. clearbody s1. intros E.
  pose proof (cl_start _ _ C s1 b c dp H1) as F2. destruct (ce_start env s1 b c dp) as [ok ops2]. cbn [snd] in F2.
  eapply IH; [|exact E]. apply (cl_log _ _ C). exact F2.
Qed.
Lemma passes_inv fuel c dp : forall s cands one r s', I s -> passes fuel env s c dp cands one = (r, s') -> I s'.
Proof.
  induction fuel as [|k IH]; intros s cands one r s' H E; cbn [passes] in E; [injection E as <- <-; exact H|].
  destruct (one_pass env s c dp cands [] one) as [[st one1] s1] eqn:P. apply one_pass_inv in P; auto.
  destruct st; [injection E as <- <-; exact P|eapply IH; eauto].
Qed.
Lemma connect_single_inv fuel s c drivers dp r s' : I s -> connect_single fuel env s c drivers dp = (r, s') -> I s'.
Proof.
  unfold connect_single. intros H E. destruct (validate (c_db s) c); try (injection E as <- <-; exact H).
  destruct (candidates fuel env s c drivers) as [x s1] eqn:K. apply candidates_inv in K; auto.
  destruct x as [cands| |]; try (injection E as <- <-; exact K).
  destruct (passes fuel env s1 c (or_null dp) cands false) as [y s2] eqn:P. apply passes_inv in P; auto.
  destruct y as [[|]| |]; try (injection E as <- <-; exact P).
  destruct dp as [p|]; [destruct (ce_end env s2 p)|]; injection E as <- <-; exact P.
Qed.
Lemma authenticate_inv s c dp rec r s' : I s -> authenticate env s c dp rec = (r, s') -> I s'.
Proof.
  unfold authenticate. intros H E. destruct (get_interface _ _ _); try (injection E as <- <-; exact H).
  destruct (locate_protocol _ _); try (injection E as <- <-; exact H).
  destruct (ce_path _ _ _ _) as [bytes|]; try (injection E as <- <-; exact H).
  pose proof (cl_auth _ _ C s i0 bytes H) as F. destruct (ce_auth env s i0 bytes) as [v ops].
  injection E as <- <-. apply (cl_log _ _ C). exact F.
Qed.
End invariant.

(** ** The loop over children, as a function of its own *)
Fixpoint each (go : cst -> N -> pstatus * cst) (st : pstatus) (kids : list N) (s : cst) : pstatus * cst :=
  match kids with
  | [] => (st, s)
  | h :: t =>
    match go s h with
    | (Panicked, s') => (Panicked, s')
    | (Hung, s') => (Hung, s')
    | (_, s') => each go st t s'
    end
  end.

Lemma connect_unfold fuel env depth s c drivers dp rec :
  connect fuel env depth s c drivers dp rec =
  match authenticate env s c dp rec with
  | (Some e, s1) => (Failed e, s1)
  | (None, s1) =>
    match connect_single fuel env s1 c drivers dp with
    | (Panicked, s2) => (Panicked, s2)
    | (Hung, s2) => (Hung, s2)
    | (st, s2) =>
      if rec then
        match depth with
        | O => (Hung, s2)
        | S k =>
          match child_handles (c_db s2) c with
          | OutHandles kids => each (fun s h => connect fuel env k s h [] None true) st kids s2
          | _ => (Panicked, s2)
          end
        end
      else (st, s2)
    end
  end.
Proof.
  assert (Heach : forall k st kids s,
    (fix each (kids : list N) (s : cst) : pstatus * cst :=
               match kids with
               | [] => (st, s)
               | h :: t =>
                 match connect fuel env k s h [] None true with
                 | (Panicked, s') => (Panicked, s')
                 | (Hung, s') => (Hung, s')
                 | (_, s') => each t s'
                 end
               end) kids s = each (fun s h => connect fuel env k s h [] None true) st kids s).
  { intros k st. induction kids as [|h t IH]; intros x; [reflexivity|]. cbn [each].
    destruct (connect fuel env k x h [] None true) as [[| | |] ?]; try reflexivity; apply IH. }
  destruct depth; cbn [connect]; destruct (authenticate env s c dp rec) as [[|] ?]; try reflexivity;
    destruct (connect_single _ _ _ _ _ _) as [[| | |] ?]; try reflexivity; destruct rec; try reflexivity;
    destruct (child_handles _ _); try reflexivity; apply Heach.
Qed.

Lemma each_inv (I : cst -> Prop) go st : forall kids s r s', I s ->
  (forall s h r s', In h kids -> I s -> go s h = (r, s') -> I s') -> each go st kids s = (r, s') -> I s'.
Proof.
  induction kids as [|h t IH]; intros s r s' H G E; cbn [each] in E; [injection E as <- <-; exact H|].
  destruct (go s h) as [x s1] eqn:K. assert (H1 : I s1) by (eapply G; eauto; left; reflexivity).
  assert (G' : forall s h r s', In h t -> I s -> go s h = (r, s') -> I s') by (intros; eapply G; eauto; right; assumption).
  destruct x; try (injection E as <- <-; exact H1); eapply IH; eauto.
Qed.

Lemma connect_inv env I fuel : closed env I -> forall depth s c drivers dp rec r s',
  I s -> connect fuel env depth s c drivers dp rec = (r, s') -> I s'.
Proof.
  intros C. induction depth as [|k IH]; intros s c drivers dp rec r s' H E; rewrite connect_unfold in E;
    destruct (authenticate env s c dp rec) as [v s1] eqn:A; apply (authenticate_inv env I C) in A; auto;
    (destruct v; [injection E as <- <-; exact A|]);
    destruct (connect_single fuel env s1 c drivers dp) as [st s2] eqn:S; apply (connect_single_inv env I C) in S; auto.
  - destruct st; try (injection E as <- <-; exact S); destruct rec; injection E as <- <-; exact S.
  - assert (K : forall st kids, each (fun s h => connect fuel env k s h [] None true) st kids s2 = (r, s') -> I s').
    { intros st0 kids E0. eapply each_inv; [exact S| |exact E0]. intros x h r0 s0 _ Hx Ex. cbn beta in Ex.
      eapply IH; [exact Hx|exact Ex]. }
    destruct st; try (injection E as <- <-; exact S); (destruct rec; [|injection E as <- <-; exact S]);
      (destruct (child_handles (c_db s2) c); try (injection E as <- <-; exact S)); eapply K; exact E.
Qed.

(** ** Children *)
Lemma all_some_spec l : match all_some l with
  | Some r => l = map Some r
  | None => In None l
  end.
Proof.
  induction l as [|[x|] t IH]; cbn [all_some]; [reflexivity| |left; reflexivity].
  destruct (all_some t); [cbn [map]; congruence|right; exact IH].
Qed.

Lemma set_fold_keys l : forall m, om_sorted m ->
  om_sorted (fold_left (fun s k => om_set s k tt) l m) /\
  forall x, In x (om_keys (fold_left (fun s k => om_set s k tt) l m)) <-> In x (om_keys m) \/ In x l.
Proof.
  induction l as [|k t IH]; intros m Hm; cbn [fold_left].
  - split; [exact Hm|]. intros x. cbn. tauto.
  - destruct (IH (om_set m k tt) (om_sorted_set m k tt Hm)) as [A B]. split; [exact A|]. intros x.
    rewrite B, om_keys_set_in. cbn [In]. split; [intros [[->|A0]|A0]; auto|intros [A0|[->|A0]]; auto].
Qed.

Lemma usage_in s c g it u : reached s -> get_inst (c_db s) c g = Some it -> In u (i_usage it) ->
  usage_ok c u /\ forall a, u_agent u = Some a -> held (past s) c g a (u_ctrl u) (u_attr u).
Proof.
  intros H G Hu. pose proof (hist_use _ _ H) as [A _]. destruct (A _ _ _ G) as [Hok Ho].
  pose proof (io_use _ _ Hok) as F. split; [rewrite Forall_forall in F; apply F; exact Hu|].
  intros a Ha. unfold held. unfold past. rewrite Ho. apply (total_pos _ _ _ _ c F). exists u. split; [exact Hu|].
  apply same_key_spec. auto.
Qed.

Lemma held_usage s c g a ctrl attr : reached s -> held (past s) c g a ctrl attr ->
  exists it u, get_inst (c_db s) c g = Some it /\ In u (i_usage it) /\ u_agent u = Some a /\ u_ctrl u = ctrl /\ u_attr u = attr.
Proof.
  intros H Hh. pose proof (hist_use _ _ H) as [A B]. unfold held, past in Hh. unfold c_db.
  destruct (get_inst (snd (c_ps s)) c g) as [it|] eqn:G; [|rewrite (B _ _ G) in Hh; congruence].
  destruct (A _ _ _ G) as [Hok Ho]. rewrite Ho in Hh. apply (total_pos _ _ _ _ c (io_use _ _ Hok)) in Hh.
  destruct Hh as (u & Hu & K). apply same_key_spec in K. exists it, u. tauto.
Qed.

Lemma child_handles_spec s c : reached s ->
  exists kids, child_handles (c_db s) c = OutHandles kids /\ StronglySorted N.lt kids /\
    forall k, In k kids <-> child_controller (past s) c k.
Proof.
  intros H. unfold child_handles. destruct (om_get (p_handles (c_db s)) c) as [hd|] eqn:G.
  - pose proof (all_some_spec (flat_map (fun gi => flat_map Protocol.Model.child_of (i_usage (snd gi))) (h_prots hd))) as A.
    pose proof (hist_pinv _ _ H) as Hp. destruct (pv_ps _ Hp _ _ G) as [Hps _].
    assert (W : forall x, In x (flat_map (fun gi => flat_map Protocol.Model.child_of (i_usage (snd gi))) (h_prots hd)) <->
                exists g it u, get_inst (c_db s) c g = Some it /\ In u (i_usage it) /\ u_attr u = 8 /\ u_ctrl u = x).
    { intros x. rewrite in_flat_map. split.
      - intros ([g it] & Hin & Hx). apply in_flat_map in Hx. destruct Hx as (u & Hu & Hx). cbn [snd] in Hu.
        assert (Gi : get_inst (c_db s) c g = Some it) by (unfold get_inst; rewrite G; apply om_in_get; assumption).
        destruct (usage_in s c g it u H Gi Hu) as [(_ & Hat & _) _]. unfold Protocol.Model.child_of in Hx.
        destruct (has_bit (u_attr u) OPEN_BY_CHILD_CONTROLLER) eqn:B; [|destruct Hx]. destruct Hx as [<-|[]].
        apply has_bit_child in B; [|exact Hat]. exists g, it, u. auto.
      - intros (g & it & u & Gi & Hu & Ha & <-). unfold get_inst in Gi. rewrite G in Gi. exists (g, it).
        split; [apply om_get_in; exact Gi|]. apply in_flat_map. exists u. split; [exact Hu|].
        unfold Protocol.Model.child_of. rewrite Ha. cbn. left. reflexivity. }
    destruct (all_some _) as [l|].
    + destruct (set_fold_keys l [] om_sorted_nil) as [S K]. eexists. split; [reflexivity|]. split; [exact S|].
      intros k. rewrite K. cbn [om_keys map In]. split.
      * intros [[]|Hk]. assert (Hs : In (Some k) (flat_map (fun gi => flat_map Protocol.Model.child_of (i_usage (snd gi))) (h_prots hd)))
          by (rewrite A; apply in_map; exact Hk).
        apply W in Hs. destruct Hs as (g & it & u & Gi & Hu & Ha & Hc).
        destruct (usage_in s c g it u H Gi Hu) as [(Hag & _) Hh]. destruct (u_agent u) as [a|] eqn:Ea; [|congruence].
        exists a, g. specialize (Hh a eq_refl). rewrite Hc, Ha in Hh. exact Hh.
      * intros (a & g & Hh). right. apply (held_usage s) in Hh; [|exact H]. destruct Hh as (it & u & Gi & Hu & _ & Hc & Ha).
        assert (Hs : In (Some k) (map Some l)) by (rewrite <- A; apply W; exists g, it, u; auto).
        apply in_map_iff in Hs. destruct Hs as (y & Hy & Hi). congruence.
    + exfalso. apply W in A. destruct A as (g & it & u & Gi & Hu & Ha & Hc).
      destruct (usage_in s c g it u H Gi Hu) as [(_ & _ & _ & Hx) _]. destruct (Hx Ha) as [X _]. congruence.
  - exists []. split; [reflexivity|]. split; [constructor|]. intros k. split; [intros []|].
    intros (a & g & Hh). apply (held_usage s) in Hh; [|exact H]. destruct Hh as (it & u & Gi & _).
    unfold get_inst in Gi. rewrite G in Gi. discriminate Gi.
Qed.

(** ** Termination *)
(** Every override protocol refuses after at most [n] answers in a row. *)
Definition answers_at_most (env : cenv) (n : nat) : Prop :=
  (forall s p c prev pre ans, c_ev s = pre ++ map (fun a => EPlatform p c (Some a)) ans -> length ans = n ->
     fst (ce_platform env s p c prev) = None) /\
  (forall s p c prev pre ans, c_ev s = pre ++ map (fun a => EBus p c (Some a)) ans -> length ans = n ->
     fst (ce_bus env s p prev) = None).

Lemma get_drivers_ends f ev n :
  (forall s prev pre ans, c_ev s = pre ++ map (fun a => ev (Some a)) ans -> length ans = n -> fst (f s prev) = None) ->
  forall m s prev acc pre ans, c_ev s = pre ++ map (fun a => ev (Some a)) ans -> (length ans + m = n)%nat ->
  exists r, fst r <> MHang /\ forall fuel, (m < fuel)%nat -> get_drivers fuel f ev s prev acc = r.
Proof.
  intros Hf. induction m as [|m IH]; intros s prev acc pre ans E L.
  - specialize (Hf s prev pre ans E ltac:(lia)). destruct (f s prev) as [x ops] eqn:F. cbn [fst] in Hf. subst x.
    exists (Got acc, log (perform s ops) (ev None)). split; [discriminate|]. intros [|fuel] Hl; [lia|].
    cbn [get_drivers]. rewrite F. reflexivity.
  - destruct (f s prev) as [x ops] eqn:F. destruct x as [h|].
    + destruct (IH (log (perform s ops) (ev (Some h))) h (acc ++ [h]) pre (ans ++ [h])) as (r & Hr & Hfu).
      * cbn [log perform c_ev]. rewrite E, map_app, <- app_assoc. reflexivity.
      * rewrite app_length. cbn [length]. lia.
      * exists r. split; [exact Hr|]. intros [|fuel] Hl; [lia|]. cbn [get_drivers]. rewrite F. apply Hfu. lia.
    + exists (Got acc, log (perform s ops) (ev None)). split; [discriminate|]. intros [|fuel] Hl; [lia|].
      cbn [get_drivers]. rewrite F. reflexivity.
Qed.

Lemma platform_ends env n s c : answers_at_most env n ->
  exists r, fst r <> MHang /\ forall fuel, (n < fuel)%nat -> platform_bindings fuel env s c = r.
Proof.
  intros [A _]. unfold platform_bindings.
  destruct (locate_protocol (c_db s) PLATFORM_OVERRIDE) as [| |p| | | | | | | | |];
    try (eexists; split; [|intros; reflexivity]; discriminate).
  destruct (p =? 0); [eexists; split; [|intros; reflexivity]; discriminate|].
  destruct (get_drivers_ends (fun s prev => ce_platform env s p c prev) (EPlatform p c) n
              (fun s prev pre ans E L => A s p c prev pre ans E L) n s 0 [] (c_ev s) []) as (r & Hr & Hf).
  { symmetry. apply app_nil_r. }
  { reflexivity. }
  destruct r as [[hs| |] s1]; [| |cbn in Hr; congruence].
  - exists (Got (bindings_of (c_db s1) hs), s1). split; [discriminate|]. intros fuel Hl. rewrite Hf by lia. reflexivity.
  - exists (MPanic, s1). split; [discriminate|]. intros fuel Hl. rewrite Hf by lia. reflexivity.
Qed.
Lemma bus_ends env n s c : answers_at_most env n ->
  exists r, fst r <> MHang /\ forall fuel, (n < fuel)%nat -> bus_bindings fuel env s c = r.
Proof.
  intros [_ A]. unfold bus_bindings.
  destruct (get_interface (c_db s) c BUS_OVERRIDE) as [| |p| | | | | | | | |];
    try (eexists; split; [|intros; reflexivity]; discriminate).
  destruct (p =? 0); [eexists; split; [|intros; reflexivity]; discriminate|].
  destruct (get_drivers_ends (fun s prev => ce_bus env s p prev) (EBus p c) n
              (fun s prev pre ans E L => A s p c prev pre ans E L) n s 0 [] (c_ev s) []) as (r & Hr & Hf).
  { symmetry. apply app_nil_r. }
  { reflexivity. }
  destruct r as [[hs| |] s1]; [| |cbn in Hr; congruence].
  - exists (Got (bindings_of (c_db s1) hs), s1). split; [discriminate|]. intros fuel Hl. rewrite Hf by lia. reflexivity.
  - exists (MPanic, s1). split; [discriminate|]. intros fuel Hl. rewrite Hf by lia. reflexivity.
Qed.

Lemma family_map_ends env : forall hs s m, fst (family_map env s hs m) <> MHang.
Proof.
  induction hs as [|h t IH]; intros s m; cbn [family_map]; [discriminate|].
  destruct (get_interface _ _ _); try apply IH. destruct (i =? 0); [discriminate|]. destruct (ce_family env s i). apply IH.
Qed.
Lemma family_ends env s : fst (family_bindings env s) <> MHang.
Proof.
  unfold family_bindings. destruct (locate_handles _ _); try discriminate.
  pose proof (family_map_ends env l s []) as F. destruct (family_map env s l []) as [[| |] ?]; cbn in *; congruence.
Qed.

Lemma candidates_ends env n s c drivers : answers_at_most env n ->
  exists r, fst r <> MHang /\ forall fuel, (n < fuel)%nat -> candidates fuel env s c drivers = r.
Proof.
  intros A. destruct (platform_ends env n s c A) as (r2 & H2 & F2). unfold candidates.
  destruct r2 as [[l2| |] s2]; [| |cbn in H2; congruence].
  2:{ exists (MPanic, s2). split; [discriminate|]. intros fuel Hl. rewrite F2 by lia. reflexivity. }
  pose proof (family_ends env s2) as H3. destruct (family_bindings env s2) as [[l3| |] s3] eqn:E3; [| |cbn in H3; congruence].
  2:{ exists (MPanic, s3). split; [discriminate|]. intros fuel Hl. rewrite F2, E3 by lia. reflexivity. }
  destruct (bus_ends env n s3 c A) as (r4 & H4 & F4). destruct r4 as [[l4| |] s4]; [| |cbn in H4; congruence].
  2:{ exists (MPanic, s4). split; [discriminate|]. intros fuel Hl. rewrite F2, E3, F4 by lia. reflexivity. }
  eexists. split; [|intros fuel Hl; rewrite F2, E3, F4 by lia; reflexivity]. discriminate.
Qed.

Lemma passes_more k env c dp : forall s cands one r s' k', (k <= k')%nat ->
  passes k env s c dp cands one = (r, s') -> r <> MHang -> passes k' env s c dp cands one = (r, s').
Proof.
  induction k as [|k IH]; intros s cands one r s' k' Hk E Hr; cbn [passes] in E; [injection E as <- <-; congruence|].
  destruct k' as [|k']; [lia|]. cbn [passes]. destruct (one_pass env s c dp cands [] one) as [[st one1] s1].
  destruct st; [exact E|]. apply IH; [lia|exact E|exact Hr].
Qed.

Lemma connect_single_ends env n s c drivers dp : answers_at_most env n ->
  exists f r, fst r <> Hung /\ forall fuel, (f <= fuel)%nat -> connect_single fuel env s c drivers dp = r.
Proof.
  intros A. unfold connect_single. destruct (validate (c_db s) c) as [u|e|];
    [|exists O; eexists; (split; [|intros; reflexivity]); discriminate|exists O; eexists; (split; [|intros; reflexivity]); discriminate].
  destruct (candidates_ends env n s c drivers A) as (r & Hr & F). destruct r as [[cands| |] s1]; [| |cbn in Hr; congruence].
  2:{ exists (S n), (Panicked, s1). split; [discriminate|]. intros fuel Hl. rewrite F by lia. reflexivity. }
  destruct (passes (S (length cands)) env s1 c (or_null dp) cands false) as [y s2] eqn:P.
  pose proof (passes_spec _ _ _ _ _ _ _ _ _ P) as Q.
  assert (Hy : y <> MHang) by (intros ->; lia).
  exists (Nat.max (S n) (S (length cands))), 
    (match y with
     | Got true => (Success, s2)
     | Got false => match dp with Some p => if ce_end env s2 p then (Success, s2) else (Failed NotFound, s2) | None => (Failed NotFound, s2) end
     | MPanic => (Panicked, s2) | MHang => (Hung, s2) end).
  split.
  - destruct y as [[|]| |]; try discriminate; [|congruence]. destruct dp as [p|]; [destruct (ce_end env s2 p)|]; discriminate.
  - intros fuel Hl. rewrite F by lia. assert (Hle : (S (length cands) <= fuel)%nat) by lia.
    rewrite (passes_more _ _ _ _ _ _ _ _ _ fuel Hle P Hy). reflexivity.
Qed.

(** Children rank below their parents, and drivers keep it so. *)
Definition ranked (rank : N -> nat) (s : cst) : Prop :=
  reached s /\ forall c k, child_controller (past s) c k -> (rank k < rank c)%nat.

Lemma each_ends (I : cst -> Prop) (go : nat -> nat -> cst -> N -> pstatus * cst) st :
  st <> Hung ->
  forall kids s, I s ->
  (forall s h, In h kids -> I s -> exists f d r, fst r <> Hung /\ I (snd r) /\
     forall fuel depth, (f <= fuel)%nat -> (d <= depth)%nat -> go fuel depth s h = r) ->
  exists f d r, fst r <> Hung /\ I (snd r) /\
     forall fuel depth, (f <= fuel)%nat -> (d <= depth)%nat -> each (go fuel depth) st kids s = r.
Proof.
  intros Hst. induction kids as [|h t IH]; intros s Hs G.
  - exists O, O, (st, s). split; [exact Hst|]. split; [exact Hs|]. reflexivity.
  - destruct (G s h (or_introl eq_refl) Hs) as (f & d & [x s1] & Hx & H1 & E). cbn [fst snd] in *.
    destruct x.
    + destruct (IH s1 H1) as (f2 & d2 & r & Hr & Hi & E2); [intros; apply G; [right; assumption|assumption]|].
      exists (Nat.max f f2), (Nat.max d d2), r. split; [exact Hr|]. split; [exact Hi|]. intros fuel depth Hf Hd. cbn [each].
      rewrite E by lia. apply E2; lia.
    + destruct (IH s1 H1) as (f2 & d2 & r & Hr & Hi & E2); [intros; apply G; [right; assumption|assumption]|].
      exists (Nat.max f f2), (Nat.max d d2), r. split; [exact Hr|]. split; [exact Hi|]. intros fuel depth Hf Hd. cbn [each].
      rewrite E by lia. apply E2; lia.
    + exists f, d, (Panicked, s1). split; [discriminate|]. split; [exact H1|]. intros fuel depth Hf Hd. cbn [each]. rewrite E by lia. reflexivity.
    + congruence.
Qed.

Lemma connect_ends env n rank : answers_at_most env n -> closed env (ranked rank) ->
  forall m c s drivers dp rec, (rank c < m)%nat -> ranked rank s ->
  exists f d r, fst r <> Hung /\ ranked rank (snd r) /\
    forall fuel depth, (f <= fuel)%nat -> (d <= depth)%nat -> connect fuel env depth s c drivers dp rec = r.
Proof.
  intros A C. induction m as [|m IH]; intros c s drivers dp rec Hm Hs; [lia|].
  destruct (authenticate env s c dp rec) as [v s1] eqn:Ea.
  assert (H1 : ranked rank s1) by (eapply (authenticate_inv env _ C); eauto).
  destruct v as [e|].
  { exists O, O, (Failed e, s1). split; [discriminate|]. split; [exact H1|]. intros. rewrite connect_unfold, Ea. reflexivity. }
  destruct (connect_single_ends env n s1 c drivers dp A) as (f1 & [st s2] & Hst & E1). cbn [fst] in Hst.
  assert (H2 : ranked rank s2) by (eapply (connect_single_inv env _ C); [exact H1|apply (E1 f1); lia]).
  assert (Hdone : (st = Panicked \/ rec = false) -> exists f d r, fst r <> Hung /\ ranked rank (snd r) /\
    forall fuel depth, (f <= fuel)%nat -> (d <= depth)%nat -> connect fuel env depth s c drivers dp rec = r).
  { intros Hd. exists f1, O, (st, s2). split; [exact Hst|]. split; [exact H2|]. intros fuel depth Hf _.
    rewrite connect_unfold, Ea, (E1 fuel Hf). destruct Hd as [->| ->]; [reflexivity|]. destruct st; reflexivity. }
  destruct rec; [|apply Hdone; right; reflexivity].
  destruct (child_handles_spec s2 c (proj1 H2)) as (kids & Ek & _ & Ik).
  assert (Hk : forall k, In k kids -> (rank k < m)%nat).
  { intros k Hin. apply Ik in Hin. apply (proj2 H2) in Hin. lia. }
  assert (Hloop : st <> Panicked -> exists f d r, fst r <> Hung /\ ranked rank (snd r) /\
    forall fuel depth, (f <= fuel)%nat -> (d <= depth)%nat -> connect fuel env depth s c drivers dp true = r).
  { intros Hp. destruct (each_ends (ranked rank) (fun fuel depth s h => connect fuel env depth s h [] None true) st Hst kids s2 H2)
      as (f & d & r & Hr & Hi & E).
    { intros s0 h Hin H0. apply IH; [apply Hk; exact Hin|exact H0]. }
    exists (Nat.max f1 f), (S d), r. split; [exact Hr|]. split; [exact Hi|]. intros fuel [|depth] Hf Hd; [lia|].
    rewrite connect_unfold, Ea, (E1 fuel) by lia. rewrite Ek. specialize (E fuel depth ltac:(lia) ltac:(lia)).
    destruct st; try congruence; exact E. }
  destruct st; try (apply Hloop; discriminate). apply Hdone. left. reflexivity.
Qed.
