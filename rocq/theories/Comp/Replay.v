(** The storage over a dispatch, run by run. *)
From Verif Require Import Base.Prelude Base.Omap Comp.Model Comp.Spec Comp.Proofs Comp.Params Comp.Dispatch Comp.Main.
Local Open Scope N_scope.

(** The storage [s] holds [v] and has [q] queued. *)
Definition at_state (s : storage) (x : view * list cmd) : Prop := wf s /\ veq (view_of s) (fst x) /\ queue s = snd x.

Lemma grants_mut ty x g : holds (GConfigMut ty x) g -> grants_in (is_mut_of ty) g = true.
Proof.
  induction g; cbn; intros [H|H]; try discriminate H; try contradiction; auto.
  - injection H as -> ->. apply N.eqb_refl.
  - destruct H as [H|H]; apply orb_true_iff; auto.
Qed.

Lemma set_view_ok s ty f x : at_state s x -> (forall c, cfg_ty ty c -> cfg_ty ty (f c)) ->
  forall g : bool * N -> bool * N, (forall c, cview (f c) = g (cview c)) ->
  at_state (match om_get (s_config_idx s) ty with Some i => upd_config s i f | None => s end)
           (match v_config (fst x) ty with Some c => put_config (fst x) ty (g c) | None => fst x end, snd x).
Proof.
  intros (W & V & Q) Hf g Hg. destruct (V ty) as (Ev & _). cbn in Ev. unfold cfgs, look in Ev.
  destruct (om_get (s_config_idx s) ty) as [i|] eqn:R.
  - destruct (upd_config_ok s ty i f W R Hf) as (c & Hc & A & _ & V'). unfold cfgs, look in Hc. rewrite R in Hc. rewrite Hc in Ev. cbn in Ev.
    rewrite <- Ev. split; [exact A|]. split.
    + cbn [fst]. rewrite <- Hg. eapply veq_trans; [exact V'|]. apply put_config_veq, V.
    + cbn [snd]. rewrite <- Q. unfold queue. rewrite upd_config_deferred. reflexivity.
  - cbn in Ev. rewrite <- Ev. split; [exact W|]. split; [exact V|exact Q].
Qed.

Lemma effect_ok gs s x e : at_state s x -> (granted is_commands gs = true -> s_deferred s <> None) -> allowed gs e ->
  at_state (run_effect gs s e) (effect_view x e) /\ (granted is_commands gs = true -> s_deferred (run_effect gs s e) <> None).
Proof.
  intros H D A. split; [|intros G; apply (run_effect_ok gs s e (proj1 H)), D, G].
  destruct x as [v q]. pose proof H as (W & V & Q). cbn [fst snd] in V, Q.
  assert (Km : forall ty y, Exists (holds (GConfigMut ty y)) gs -> granted (is_mut_of ty) gs = true) by (intros ty y; apply granted_exists, grants_mut).
  assert (Ks : Exists (holds GStorageMut) gs -> granted is_storage_mut gs = true) by (apply granted_exists, grants_storage).
  destruct e; cbn [run_effect effect_view allowed] in *.
  - destruct A as [y A]. rewrite (Km _ _ A).
    pose proof (set_view_ok s ty (write_cfg v0) (v, q) H (fun c X => X) (fun c => (fst c, v0)) (fun c => eq_refl)) as K.
    cbn [fst snd] in K. destruct (v_config v ty) as [[l y0]|]; exact K.
  - destruct A as [y A]. rewrite (Km _ _ A).
    pose proof (set_view_ok s ty lock_cfg (v, q) H (fun c X => X) (fun c => (true, snd c)) (fun c => eq_refl)) as K.
    cbn [fst snd] in K. destruct (v_config v ty) as [[l y0]|]; exact K.
  - apply (granted_exists is_commands _ _ grants_commands) in A. rewrite A. specialize (D A).
    destruct (s_deferred s) as [q0|] eqn:E; [|contradiction]. destruct (with_deferred_ok s (Some (q0 ++ [c])) W) as (A1 & _ & V1).
    split; [exact A1|]. split; [exact (veq_trans _ _ _ V1 V)|]. cbn. unfold queue in *. cbn. rewrite E in Q. rewrite Q. reflexivity.
  - rewrite (Ks A). destruct (add_config_ok s ty v0 W) as (A1 & _ & V1). split; [exact A1|]. split.
    + eapply veq_trans; [exact V1|]. apply put_config_veq, V.
    + cbn. rewrite <- Q. unfold queue. rewrite add_config_deferred. reflexivity.
  - rewrite (Ks A). destruct (add_service_ok s ty v0 W) as (A1 & _ & V1). split; [exact A1|]. split.
    + eapply veq_trans; [exact V1|]. apply put_service_veq, V.
    + cbn. rewrite <- Q. unfold queue. rewrite add_service_deferred. reflexivity.
  - rewrite (Ks A). destruct (lock_configs_ok s W) as (A1 & _ & V1). split; [exact A1|]. split.
    + eapply veq_trans; [exact V1|]. apply lock_view_veq, V.
    + cbn. exact Q.
  - rewrite (Ks A).
    pose proof (set_view_ok s ty (write_cfg v0) (v, q) H (fun c X => X) (fun c => (fst c, v0)) (fun c => eq_refl)) as K.
    cbn [fst snd] in K. destruct (v_config v ty) as [[l y0]|]; exact K.
  - rewrite (Ks A).
    pose proof (set_view_ok s ty lock_cfg (v, q) H (fun c X => X) (fun c => (true, snd c)) (fun c => eq_refl)) as K.
    cbn [fst snd] in K. destruct (v_config v ty) as [[l y0]|]; exact K.
Qed.
Lemma effects_ok gs es : forall s x, at_state s x -> (granted is_commands gs = true -> s_deferred s <> None) -> (forall e, In e es -> allowed gs e) ->
  at_state (fold_left (run_effect gs) es s) (fold_left effect_view es x).
Proof.
  induction es as [|e es IH]; intros s x H D A; [exact H|]. cbn [fold_left].
  destruct (effect_ok gs s x e H D (A e (or_introl eq_refl))) as [H1 D1]. apply IH; auto. intros e' He. apply A. right. exact He.
Qed.

Lemma flush_ok s v q : at_state s (v, q) -> at_state (apply_deferred s) (fold_left cmd_view q v, []) /\ s_deferred (apply_deferred s) = None.
Proof.
  intros (W & V & Q). destruct (apply_deferred_ok s W) as (W1 & _ & V1 & D1). cbn [fst snd] in *. split; [|exact D1].
  split; [exact W1|]. split; [|cbn; unfold queue; rewrite D1; reflexivity]. cbn [fst]. eapply veq_trans; [exact V1|]. rewrite Q. apply cmds_view_veq, V.
Qed.

Lemma run_comp_replay s c x o s1 c1 : at_state s x -> lawful c -> run_comp s c = Ok (o, s1, c1) ->
  c_body c1 = c_body c /\ exists y, at_state s1 y /\ replay x (match o with Waiting => [] | Ran _ e => [e] end) y.
Proof.
  intros H La E. destruct x as [v q]. destruct (flush_ok s v q H) as [H1 D1]. unfold run_comp in E.
  set (s0 := apply_deferred s) in *. destruct (c_state c) as [sts|]; [|discriminate].
  destruct (try_validate s0 (c_params c) sts) as [[p|]| |]; cbn [bind] in E; try discriminate.
  - injection E as <- <- <-. split; [reflexivity|]. exists (fold_left cmd_view q v, []). split; [exact H1|]. apply rp_flush, rp_end.
  - destruct (get_params s0 [] (c_params c) sts) as [[gs s2]| |] eqn:G; cbn [bind] in E; try discriminate.
    destruct (negb (c_input c)); [discriminate|]. destruct (c_body c s2 gs) as [ok effs] eqn:B. injection E as <- <- <-.
    split; [reflexivity|]. destruct (get_params_fetched _ _ _ _ _ _ G) as [Fe Cm].
    destruct (fetched_facts _ _ Fe (proj1 H1)) as (W2 & _ & V2 & Q2). destruct H1 as (W1 & V1 & Q1). cbn [fst snd] in *.
    set (w := fold_left cmd_view q v) in *.
    assert (H2 : at_state s2 (w, [])) by (split; [exact W2|]; split; [exact (veq_trans _ _ _ V2 V1)|cbn; congruence]).
    exists (fold_left effect_view effs (w, [])). split.
    + apply effects_ok; auto. intros e He. apply (La s2 gs). rewrite B. exact He.
    + apply rp_flush, rp_run; [|apply rp_end]. cbn. apply (shows_veq _ _ _ (wf_shows s2 W2)). exact (proj1 (proj2 H2)).
Qed.
Lemma replay_app x l1 y l2 z : replay x l1 y -> replay y l2 z -> replay x (l1 ++ l2) z.
Proof. intros A B. induction A; cbn; [exact B|apply rp_flush; auto|apply rp_run; auto]. Qed.

Lemma dispatch_replay dbg : forall cs s x s1 kept log, at_state s x -> Forall lawful cs ->
  dispatch_components dbg s cs = Ok (s1, kept, log) -> Forall lawful kept /\ exists y, at_state s1 y /\ replay x log y.
Proof.
  induction cs as [|c t IH]; intros s x s1 kept log H La E; cbn [dispatch_components] in E.
  { injection E as <- <- <-. split; [constructor|]. exists x. split; [exact H|apply rp_end]. }
  inversion La as [|? ? L1 L2]; subst. destruct (run_comp s c) as [[[o s2] c2]| |] eqn:R; cbn [bind] in E; try discriminate.
  destruct (run_comp_replay s c x o s2 c2 H L1 R) as (Eb & y & Hy & Ry). destruct o as [|ok e].
  - destruct (dispatch_components dbg s2 t) as [[[s3 k3] log3]| |] eqn:Dt; cbn [bind] in E; try discriminate. injection E as <- <- <-.
    destruct (IH _ _ _ _ _ Hy L2 Dt) as (Lk & z & Hz & Rz). split; [constructor; [|exact Lk]; unfold lawful in *; rewrite Eb; exact L1|].
    exists z. split; [exact Hz|exact (replay_app _ _ _ _ _ Ry Rz)].
  - destruct (dbg && negb ok); [discriminate|].
    destruct (dispatch_components dbg s2 t) as [[[s3 k3] log3]| |] eqn:Dt; cbn [bind] in E; try discriminate. injection E as <- <- <-.
    destruct (IH _ _ _ _ _ Hy L2 Dt) as (Lk & z & Hz & Rz). split; [exact Lk|].
    exists z. split; [exact Hz|exact (replay_app _ _ _ _ _ Ry Rz)].
Qed.
Lemma core_replay dbg : forall fuel cs s x drv s1 kept d1 log, at_state s x -> Forall lawful cs ->
  core_dispatcher fuel dbg s cs drv = Some (Ok (s1, kept, d1, log)) -> Forall lawful kept /\ exists y, at_state s1 y /\ replay x log y.
Proof.
  induction fuel as [|f IH]; intros cs s x drv s1 kept d1 log H La E; cbn [core_dispatcher] in E; [discriminate|].
  destruct (dispatch_components dbg s cs) as [[[s2 k2] log2]| |] eqn:Dt; try discriminate.
  destruct (dispatch_replay dbg _ _ _ _ _ _ H La Dt) as (Lk & y & Hy & Ry).
  assert (K : forall drv', match core_dispatcher f dbg s2 k2 drv' with
        | Some (Ok (s3, k3, d3, log3)) => Some (Ok (s3, k3, d3, log2 ++ log3))
        | r => r
        end = Some (Ok (s1, kept, d1, log)) -> Forall lawful kept /\ exists y, at_state s1 y /\ replay x log y).
  { intros drv' E'. destruct (core_dispatcher f dbg s2 k2 drv') as [[[[[s3 k3] d3] log3]| |]|] eqn:C; try discriminate.
    injection E' as <- <- <- <-. destruct (IH _ _ _ _ _ _ _ _ Hy Lk C) as (Lk3 & z & Hz & Rz). split; [exact Lk3|].
    exists z. split; [exact Hz|exact (replay_app _ _ _ _ _ Ry Rz)]. }
  destruct (negb (length k2 =? length cs)%nat); [exact (K _ E)|].
  destruct drv as [|[] d].
  - injection E as <- <- <- <-. split; [exact Lk|]. exists y. auto.
  - exact (K _ E).
  - injection E as <- <- <- <-. split; [exact Lk|]. exists y. auto.
Qed.

Section Start.
Variables (default : N -> N) (hob_guid : N -> N) (hob_parse : N -> N -> N).

Lemma start_replay fuel dbg bs hobs drv s cs log :
  start default hob_guid hob_parse fuel dbg bs hobs drv = Some (Ok (s, cs, log)) -> Forall lawful (comps_of bs) ->
  exists v0 log1 x1 log2 v2 q2,
    (forall ty, v_config v0 ty = v_config (built default bs) ty /\ v_service v0 ty = v_service (built default bs) ty
       /\ (wants_hob bs ty -> v_hob v0 ty = hobs_for hob_guid hob_parse ty hobs) /\ (~ wants_hob bs ty -> v_hob v0 ty = []))
    /\ log = log1 ++ log2 /\ replay (v0, []) log1 x1 /\ replay (lock_view (fst x1), snd x1) log2 (v2, q2) /\ shows s v2.
Proof.
  intros E La. unfold start in E.
  destruct (build_all_ok default hob_guid dbg bs [] new_storage [] (built_new default hob_guid)) as [(s0 & cs0 & Eb & B & K)|(_ & Eb & _)]; rewrite Eb in E; [|discriminate].
  cbn [app] in B. destruct B as [W0 F0 V0 P0 D0 I0 Sm0].
  destruct (set_tables_ok s0 W0) as [Wt Vt]. set (st := set_services_tables s0) in *.
  assert (Pt : pok hob_guid st (wants_hob bs)) by (apply (pok_same _ s0); [reflexivity|exact P0]).
  destruct (parse_hobs_ok default hob_guid hob_parse (wants_hob bs) hobs st Wt Pt) as (s1 & Ep & W1 & G1 & D1 & V1). rewrite Ep in E.
  assert (L0 : Forall lawful cs0).
  { apply Forall_forall. intros c' Hc. destruct (Sm0 c' Hc) as (c & Hi & (_ & _ & Ec & _)). rewrite Forall_forall in La. unfold lawful. rewrite Ec. apply La, Hi. }
  assert (H1 : at_state s1 (view_of s1, [])).
  { split; [exact W1|]. split; [apply veq_refl|]. cbn. unfold queue. rewrite D1. unfold st. cbn. rewrite D0. reflexivity. }
  destruct (core_dispatcher fuel dbg s1 cs0 drv) as [[[[[s2 cs2] drv2] log1]| |]|] eqn:C1; try discriminate.
  destruct (core_replay dbg _ _ _ _ _ _ _ _ _ H1 L0 C1) as (L2 & x1 & Hx & Rx).
  assert (Hl : at_state (lock_configs s2) (lock_view (fst x1), snd x1)).
  { destruct Hx as (A & B & C). destruct (lock_configs_ok s2 A) as (A1 & _ & V2). split; [exact A1|]. split; [|exact C].
    eapply veq_trans; [exact V2|]. apply lock_view_veq, B. }
  destruct (core_dispatcher fuel dbg (lock_configs s2) cs2 drv2) as [[[[[s3 cs3] drv3] log2]| |]|] eqn:C2; try discriminate.
  destruct (core_replay dbg _ _ _ _ _ _ _ _ _ Hl L2 C2) as (L3 & [v2 q2] & Hy & Ry). injection E as <- <- <-.
  exists (view_of s1), log1, x1, log2, v2, q2. split.
  { intros ty. destruct (V1 ty) as (A & B & C & D). destruct (Vt ty) as (A1 & B1 & C1'). destruct (V0 ty) as (A2 & B2 & C2').
    rewrite A, A1, A2, B, B1, B2. split; [reflexivity|]. split; [reflexivity|].
    split; intros Hw; [rewrite (C Hw)|rewrite (D Hw)]; rewrite C1', C2', (built_hobs default); reflexivity. }
  split; [reflexivity|]. split; [exact Rx|]. split; [exact Ry|]. destruct Hy as (A & B & _). exact (shows_veq _ _ _ (wf_shows s3 A) B).
Qed.
End Start.
