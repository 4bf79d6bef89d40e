(** Proofs about the protocol services. *)
From Verif Require Import Base.Prelude Base.Omap Protocol.Model Protocol.Spec Protocol.Proofs Protocol.Usage
  Protocol.Notify Protocol.Services.
Local Open Scope N_scope.

Definition shist (s : pstate) : Prop := hist (fst s) (snd s).

Lemma call_hist s o : shist s -> shist (snd (call s o)).
Proof.
  intros H. unfold call. destruct (pstep (snd s) o) as [r d'] eqn:E. cbn [snd].
  unfold shist. cbn [fst snd]. econstructor; eauto.
Qed.
Lemma call_eq s o r s' : shist s -> call s o = (r, s') ->
  shist s' /\ fst s' = (o, r) :: fst s /\ pstep (snd s) o = (r, snd s').
Proof.
  intros H E. pose proof (call_hist s o H) as H'. rewrite E in H'. split; [exact H'|].
  unfold call in E. destruct (pstep (snd s) o) as [r0 d']. injection E as <- <-. split; reflexivity.
Qed.
Lemma calls_hist ops : forall s, shist s -> shist (calls s ops).
Proof. induction ops as [|o t IH]; intros s H; cbn [calls]; [exact H|]. apply IH, call_hist, H. Qed.

Lemma signal_all_hist env evs : forall s closed, shist s -> shist (snd (signal_all env s evs closed)).
Proof.
  induction evs as [|e t IH]; intros s closed H; cbn [signal_all]; [exact H|].
  destruct (e_signal env (fst s) e) as [inv ops]. apply IH, calls_hist, H.
Qed.

Lemma core_install_hist env s h g i : shist s -> shist (snd (core_install env s h g i)).
Proof.
  intros H. unfold core_install. pose proof (call_hist s (OInstall h g i) H) as H1.
  destruct (call s (OInstall h g i)) as [r s1]. cbn [snd] in H1. destruct r; try exact H1.
  pose proof (signal_all_hist env evs s1 [] H1) as H2. destruct (signal_all env s1 evs []) as [closed s2]. cbn [snd] in H2.
  pose proof (call_hist s2 (OUnregister closed) H2) as H3. destruct (call s2 (OUnregister closed)). exact H3.
Qed.

Lemma usages_of_hist s h g : shist s -> shist (snd (usages_of s h g)).
Proof.
  intros H. unfold usages_of. pose proof (call_hist s (OOpenInfo h g) H) as H1.
  destruct (call s (OOpenInfo h g)) as [r s1]. cbn [snd] in H1. destruct r; try exact H1. destruct e; exact H1.
Qed.

Lemma disc_loop_hist fuel env h g : forall s, shist s -> shist (snd (disc_loop fuel env s h g)).
Proof.
  induction fuel as [|f IH]; intros s H; cbn [disc_loop]; [exact H|].
  pose proof (usages_of_hist s h g H) as H1. destruct (usages_of s h g) as [[st us] s1]. cbn [snd] in H1.
  destruct st; try exact H1. destruct (find _ us) as [u|]; [|exact H1].
  destruct (e_disc env (fst s1) h (u_agent u)) as [ok ops]. destruct ok; [apply IH|]; apply calls_hist, H1.
Qed.

Lemma drop_soft_hist h g us : forall s b, shist s -> shist (snd (drop_soft s h g us b)).
Proof.
  induction us as [|u t IH]; intros s b H; cbn [drop_soft]; [exact H|].
  destruct (has_bit (u_attr u) SOFT_OPENS); [|apply IH, H].
  pose proof (call_hist s (OClose h g (u_agent u) (u_ctrl u) (Some (u_attr u))) H) as H1.
  destruct (call s _) as [r s1]. destruct r; apply IH, H1.
Qed.

Lemma finish_hist env s h g i b : shist s -> shist (snd (finish_uninstall env s h g i b)).
Proof.
  intros H. unfold finish_uninstall. destruct b; [apply calls_hist, H|].
  pose proof (call_hist s (OUninstall h g i) H) as H1. destruct (call s (OUninstall h g i)). exact H1.
Qed.

Lemma core_uninstall_hist fuel env s h g i : shist s -> shist (snd (core_uninstall fuel env s h g i)).
Proof.
  intros H. unfold core_uninstall. pose proof (call_hist s (OGetInterface h g) H) as H1.
  destruct (call s (OGetInterface h g)) as [r s1]. cbn [snd] in H1. destruct r; try exact H1.
  destruct (negb (i0 =? i)); [exact H1|].
  pose proof (disc_loop_hist fuel env h g s1 H1) as H2. destruct (disc_loop fuel env s1 h g) as [[st b] s2]. cbn [snd] in H2.
  destruct st; try exact H2. destruct b; [|apply finish_hist, H2].
  pose proof (usages_of_hist s2 h g H2) as H3. destruct (usages_of s2 h g) as [[st us] s3]. cbn [snd] in H3.
  destruct st; try exact H3.
  pose proof (drop_soft_hist h g us s3 false H3) as H4. destruct (drop_soft s3 h g us false). apply finish_hist, H4.
Qed.

Lemma svc_install_hist env s h g i : shist s -> shist (snd (svc_install env s h g i)).
Proof.
  intros H. unfold svc_install. pose proof (core_install_hist env s (nonnull h) g i H) as H1.
  destruct (core_install env s (nonnull h) g i) as [[st k] s1]. cbn [snd] in H1. destruct st; try exact H1. destruct k; exact H1.
Qed.

Lemma uninstall_each_hist fuel env h done : forall s, shist s -> shist (uninstall_each fuel env s h done).
Proof. induction done as [|[g i] t IH]; intros s H; cbn [uninstall_each]; [exact H|]. apply IH, core_uninstall_hist, H. Qed.

Lemma reinstall_each_hist env h done : forall s, shist s -> shist (reinstall_each env s h done).
Proof. induction done as [|[g i] t IH]; intros s H; cbn [reinstall_each]; [exact H|]. apply IH, core_install_hist, H. Qed.

Lemma valid_or_none_hist s h : shist s -> shist (snd (valid_or_none s h)).
Proof.
  intros H. unfold valid_or_none. pose proof (call_hist s (OValidate h) H) as H1.
  destruct (call s (OValidate h)) as [r s1]. destruct r; exact H1.
Qed.

(** The tail of [svc_open]. *)
Definition open_finish (h g : N) (a c : option N) (attr : N) (s : pstate) : pstatus * option N * pstate :=
    match call s (OOpen h g a c attr) with
    | (OutErr Unsupported, s') => (Failed Unsupported, Some 0, s')
    | (OutErr AlreadyStarted, s') =>
      match call s' (OGetInterface h g) with
      | (OutIface i, s'') =>
        if has_bit attr OPEN_BY_DRIVER then (Failed AlreadyStarted, Some i, s'')
        else (Success, if attr =? OPEN_TEST_PROTOCOL then None else Some i, s'')
      | (r, s'') => (if has_bit attr OPEN_BY_DRIVER then Panicked else of_out r, None, s'')
      end
    | (OutUnit, s') =>
      match call s' (OGetInterface h g) with
      | (OutIface i, s'') => (Success, if attr =? OPEN_TEST_PROTOCOL then None else Some i, s'')
      | (r, s'') => (of_out r, None, s'')
      end
    | (r, s') => (of_out r, None, s')
    end.

Lemma svc_open_unfold env s h g agent ctrl attr :
  svc_open env s h g agent ctrl attr =
  let '(a, s1) := valid_or_none s agent in
  let '(c, s2) := valid_or_none s1 ctrl in
  if has_bit attr OPEN_EXCLUSIVE then
    match usages_of s2 h g with
    | (Success, us, s3) =>
      match find (fun u => has_bit (u_attr u) OPEN_BY_DRIVER && negb (has_bit (u_attr u) OPEN_EXCLUSIVE) &&
                           negb (oeqb (u_agent u) a)) us with
      | Some u =>
        let '(ok, ops) := e_disc env (fst s3) h (u_agent u) in
        let s4 := calls s3 ops in
        if ok then open_finish h g a c attr s4 else (Failed AccessDenied, None, s4)
      | None => open_finish h g a c attr s3
      end
    | (st, _, s3) => (st, None, s3)
    end
  else open_finish h g a c attr s2.
Proof. reflexivity. Qed.

Lemma open_finish_hist h g a c attr s : shist s -> shist (snd (open_finish h g a c attr s)).
Proof.
  intros H. unfold open_finish. pose proof (call_hist s (OOpen h g a c attr) H) as H1.
  destruct (call s (OOpen h g a c attr)) as [r s1]. cbn [snd] in H1.
  pose proof (call_hist s1 (OGetInterface h g) H1) as H2. destruct (call s1 (OGetInterface h g)) as [r2 s2]. cbn [snd] in H2.
  destruct r; try exact H1.
  - destruct r2; exact H2.
  - destruct e; try exact H1. destruct r2; try exact H2. destruct (has_bit attr OPEN_BY_DRIVER); exact H2.
Qed.

Lemma svc_open_hist env s h g agent ctrl attr : shist s -> shist (snd (svc_open env s h g agent ctrl attr)).
Proof.
  intros H. rewrite svc_open_unfold.
  pose proof (valid_or_none_hist s agent H) as H1. destruct (valid_or_none s agent) as [a s1]. cbn [snd] in H1.
  pose proof (valid_or_none_hist s1 ctrl H1) as H2. destruct (valid_or_none s1 ctrl) as [c s2]. cbn [snd] in H2.
  destruct (has_bit attr OPEN_EXCLUSIVE); [|apply open_finish_hist, H2].
  pose proof (usages_of_hist s2 h g H2) as H3. destruct (usages_of s2 h g) as [[st us] s3]. cbn [snd] in H3.
  destruct st; try exact H3. destruct (find _ us) as [u|]; [|apply open_finish_hist, H3].
  destruct (e_disc env (fst s3) h (u_agent u)) as [ok ops]. destruct ok; [apply open_finish_hist|]; apply calls_hist, H3.
Qed.

(** Successful lookups. *)
Lemma get_interface_call s h g i s' : shist s -> call s (OGetInterface h g) = (OutIface i, s') ->
  installed (fst s) h g = Some i.
Proof.
  intros H E. apply call_eq in E; [|exact H]. destruct E as (_ & _ & E). cbn [pstep] in E.
  unfold get_interface, validate in E. destruct (om_mem (p_handles (snd s)) h); [|discriminate].
  rewrite <- (hist_iface _ _ H). destruct (get_inst (snd s) h g); [|discriminate]. injection E as <-. reflexivity.
Qed.

Lemma get_interface_ok s h g i : shist s -> installed (fst s) h g = Some i ->
  exists s', call s (OGetInterface h g) = (OutIface i, s').
Proof.
  intros H Hi. destruct (call s (OGetInterface h g)) as [r s'] eqn:E. exists s'.
  apply call_eq in E; [|exact H]. destruct E as (_ & _ & E). cbn [pstep] in E. f_equal.
  assert (Hl : om_get (p_handles (snd s)) h <> None) by (apply (hist_live _ _ _ H); exists g, i; exact Hi).
  unfold get_interface, validate, om_mem in E. rewrite <- (hist_iface _ _ H) in Hi.
  destruct (om_get (p_handles (snd s)) h); [|congruence].
  destruct (get_inst (snd s) h g); [|discriminate]. cbn in Hi. injection Hi as <-. injection E as <- _. reflexivity.
Qed.

(** The view a client has of the database: what is installed and who holds it. *)
Definition no_opens (tr : list pcall) (h g : N) : Prop := forall a c attr, opens tr h g a c attr = 0.
Definition same_opens (tr tr' : list pcall) (h g : N) : Prop := forall a c attr, opens tr' h g a c attr = opens tr h g a c attr.

Lemma no_opens_usage s h g i : shist s -> installed (fst s) h g = Some i -> no_opens (fst s) h g ->
  exists it, get_inst (snd s) h g = Some it /\ i_iface it = i /\ i_usage it = [].
Proof.
  intros H Hi Hn. rewrite <- (hist_iface _ _ H) in Hi. destruct (get_inst (snd s) h g) as [it|] eqn:G; [|discriminate].
  cbn in Hi. injection Hi as <-. exists it. repeat split; auto.
  destruct (hist_use _ _ H) as [A _]. destruct (A _ _ _ G) as [[U _ _ _] T].
  destruct (i_usage it) as [|u t] eqn:E; [reflexivity|]. exfalso. inversion U as [|? ? Hu _]; subst.
  destruct Hu as (Ha & _ & Hc & _). destruct (u_agent u) as [ag|] eqn:Ea; [|congruence].
  specialize (Hn ag (u_ctrl u) (u_attr u)). rewrite T in Hn. cbn [total] in Hn.
  assert (same_key ag (u_ctrl u) (u_attr u) u = true) as K by (apply same_key_spec; auto). rewrite K in Hn. lia.
Qed.

Lemma usages_of_none s h g i : shist s -> installed (fst s) h g = Some i -> no_opens (fst s) h g ->
  exists s', usages_of s h g = (Success, [], s') /\ shist s' /\
   (forall h' g', installed (fst s') h' g' = installed (fst s) h' g') /\ (forall h' g', same_opens (fst s) (fst s') h' g').
Proof.
  intros H Hi Hn. destruct (no_opens_usage _ _ _ _ H Hi Hn) as (it & G & _ & U).
  pose proof (usages_of_hist s h g H) as H1. unfold usages_of in *. destruct (call s (OOpenInfo h g)) as [r s1] eqn:E.
  apply call_eq in E; [|exact H]. destruct E as (_ & Et & E). cbn [pstep] in E.
  unfold open_info, validate in E. assert (Hl : om_mem (p_handles (snd s)) h = true).
  { unfold get_inst in G. unfold om_mem. destruct (om_get (p_handles (snd s)) h); [reflexivity|discriminate]. }
  rewrite Hl, G, U in E. injection E as <- _. exists s1. split; [reflexivity|]. split; [exact H1|]. rewrite Et.
  split; intros; [reflexivity|]. intros a c attr. reflexivity.
Qed.

(** Uninstalling an instance nobody holds. *)
Lemma core_uninstall_fresh fuel env s h g i :
  shist s -> installed (fst s) h g = Some i -> no_opens (fst s) h g ->
  exists s', core_uninstall (S fuel) env s h g i = (Success, s') /\ shist s' /\
   (forall h' g', installed (fst s') h' g' = if (h' =? h) && (g' =? g) then None else installed (fst s) h' g') /\
   (forall h' g', (h' =? h) && (g' =? g) = false -> same_opens (fst s) (fst s') h' g').
Proof.
  intros H Hi Hn. pose proof (core_uninstall_hist (S fuel) env s h g i H) as Hh. unfold core_uninstall in *.
  destruct (get_interface_ok s h g i H Hi) as (s1 & E1). rewrite E1 in *.
  apply call_eq in E1; [|exact H]. destruct E1 as (H1 & T1 & _). rewrite N.eqb_refl in *. cbn [negb] in *.
  assert (Hi1 : installed (fst s1) h g = Some i) by (rewrite T1; exact Hi).
  assert (Hn1 : no_opens (fst s1) h g) by (rewrite T1; exact Hn).
  cbn [disc_loop] in *. destruct (usages_of_none _ _ _ _ H1 Hi1 Hn1) as (s2 & E2 & H2 & V2 & O2). rewrite E2 in *.
  cbn [find] in *.
  assert (Hi2 : installed (fst s2) h g = Some i) by (rewrite V2; exact Hi1).
  assert (Hn2 : no_opens (fst s2) h g) by (intros a c attr; rewrite O2; apply Hn1).
  destruct (usages_of_none _ _ _ _ H2 Hi2 Hn2) as (s3 & E3 & H3 & V3 & O3). rewrite E3 in *.
  cbn [drop_soft finish_uninstall] in *.
  assert (Hi3 : installed (fst s3) h g = Some i) by (rewrite V3; exact Hi2).
  assert (Hn3 : no_opens (fst s3) h g) by (intros a c attr; rewrite O3; apply Hn2).
  destruct (no_opens_usage _ _ _ _ H3 Hi3 Hn3) as (it & G & Ei & U).
  destruct (call s3 (OUninstall h g i)) as [r s4] eqn:E4. apply call_eq in E4; [|exact H3]. destruct E4 as (H4 & T4 & E4).
  cbn [pstep] in E4. assert (r = OutUnit) as ->.
  { unfold uninstall in E4. unfold get_inst in G. destruct (om_get (p_handles (snd s3)) h); [|discriminate].
    rewrite G, Ei, N.eqb_refl, U in E4. cbn [negb] in E4. injection E4 as <- _. reflexivity. }
  exists s4. split; [reflexivity|]. split; [exact Hh|]. rewrite T4. split.
  - intros h' g'. cbn [installed]. destruct ((h' =? h) && (g' =? g)); [reflexivity|]. rewrite V3, V2, T1. reflexivity.
  - intros h' g' Hne a c attr. cbn [opens]. rewrite Hne. rewrite O3, O2, T1. reflexivity.
Qed.

(** Environments whose callbacks make no database calls. *)
Definition quiet (env : penv) : Prop :=
  (forall tr e, snd (e_signal env tr e) = []) /\ (forall tr h a, snd (e_disc env tr h a) = []) /\
  (forall tr h, e_conn env tr h = []).

Lemma signal_all_quiet env evs : quiet env -> forall s closed, snd (signal_all env s evs closed) = s.
Proof.
  intros (Q & _). induction evs as [|e t IH]; intros s closed; cbn [signal_all]; [reflexivity|].
  specialize (Q (fst s) e). destruct (e_signal env (fst s) e) as [inv ops]. cbn [snd] in Q. rewrite Q. cbn [calls]. apply IH.
Qed.

Lemma core_install_quiet env s h g i :
  quiet env -> shist s ->
  let '(st, k, s') := core_install env s h g i in
  match st, k with
  | Success, Some key =>
      installed (fst s) key g = None /\
      match h with Some h => key = h | None => key <> 0 /\ ~ live (fst s) key end /\
      (forall h' g', installed (fst s') h' g' = if (h' =? key) && (g' =? g) then Some i else installed (fst s) h' g') /\
      no_opens (fst s') key g /\
      (forall h' g', (h' =? key) && (g' =? g) = false -> same_opens (fst s) (fst s') h' g')
  | Success, None => False
  | _, _ => (forall h' g', installed (fst s') h' g' = installed (fst s) h' g' /\ same_opens (fst s) (fst s') h' g')
  end.
Proof.
  intros Q H. unfold core_install. destruct (call s (OInstall h g i)) as [r s1] eqn:E.
  apply call_eq in E; [|exact H]. destruct E as (H1 & T1 & E). cbn [pstep] in E.
  pose proof (hist_pinv _ _ H) as Hp.
  destruct (install_effect _ _ _ _ _ _ Hp E) as [(key & evs & -> & He)|(_ & [(e & ->)|(_ & ->)])].
  - pose proof (signal_all_quiet env evs Q s1 []) as S2. destruct (signal_all env s1 evs []) as [closed s2]. cbn [snd] in S2. subst s2.
    destruct (call s1 (OUnregister closed)) as [r3 s3] eqn:E3. apply call_eq in E3; [|exact H1]. destruct E3 as (_ & T3 & _).
    rewrite T3, T1. split.
    { rewrite <- (hist_iface _ _ H), (ie_free _ _ _ _ _ _ _ He). reflexivity. }
    destruct He as [_ _ _ _ _ _ (ord & ps & _ & Hc)]. split.
    { destruct h as [h|]; [destruct Hc as (-> & _); reflexivity|]. destruct Hc as (Hz & Hk & _). split; [exact Hz|].
      intros Hl. apply (hist_live _ _ _ H) in Hl. congruence. }
    split; [intros; cbn [installed]; reflexivity|]. split.
    + intros a c attr. cbn [opens]. rewrite !N.eqb_refl. reflexivity.
    + intros h' g' Hne a c attr. cbn [opens]. rewrite Hne. reflexivity.
  - cbn [of_out]. intros. rewrite T1. split; [reflexivity|]. intros a c attr. reflexivity.
  - cbn [of_out]. intros. rewrite T1. split; [reflexivity|]. intros a c attr. reflexivity.
Qed.

(** The rollback of [install_each]. *)
Definition find_item (done : list (N * N)) (g : N) : option N :=
  match find (fun gi => fst gi =? g) done with Some gi => Some (snd gi) | None => None end.

Lemma uninstall_each_restores fuel env h (base : N -> N -> option N) done : forall s,
  shist s -> NoDup (map fst done) ->
  (forall h' g', installed (fst s) h' g' =
     if h' =? h then match find_item done g' with Some i => Some i | None => base h' g' end else base h' g') ->
  (forall g i, In (g, i) done -> base h g = None /\ no_opens (fst s) h g) ->
  forall h' g', installed (fst (uninstall_each (S fuel) env s h done)) h' g' = base h' g'.
Proof.
  induction done as [|[g i] t IH]; intros s H Hnd Hv Hb; cbn [uninstall_each].
  - intros h' g'. rewrite Hv. unfold find_item. cbn [find]. destruct (h' =? h); reflexivity.
  - cbn [map fst] in Hnd. inversion Hnd as [|? ? Hg Hnd']; subst.
    destruct (Hb g i (or_introl eq_refl)) as [Hbg Hng].
    assert (Hi : installed (fst s) h g = Some i).
    { rewrite Hv, N.eqb_refl. unfold find_item. cbn [find fst]. rewrite N.eqb_refl. reflexivity. }
    destruct (core_uninstall_fresh fuel env s h g i H Hi Hng) as (s' & E & H' & V & O). rewrite E. cbn [snd].
    apply IH; auto.
    + intros h' g'. rewrite V, Hv. unfold find_item. cbn [find fst]. destruct (h' =? h) eqn:Eh; cbn [andb]; [|reflexivity].
      rewrite (N.eqb_sym g g'). destruct (g' =? g) eqn:Eg; cbn [snd]; [|reflexivity].
      assert (g' = g) by lia. assert (h' = h) by lia. subst. rewrite Hbg.
      destruct (find (fun gi => fst gi =? g) t) as [[g2 i2]|] eqn:F; [|reflexivity]. exfalso.
      apply find_some in F. destruct F as [F1 F2]. cbn [fst] in F2. apply Hg. apply in_map_iff. exists (g2, i2). cbn. split; [lia|exact F1].
    + intros g' i' Hin. destruct (Hb g' i' (or_intror Hin)) as [B1 B2]. split; [exact B1|].
      intros a c attr. rewrite O; [apply B2|]. destruct (g' =? g) eqn:Eg; [|apply andb_false_r]. exfalso. apply Hg.
      assert (g' = g) by lia. subst g'. apply in_map_iff. exists (g, i'). auto.
Qed.

Lemma find_item_app done g i g' : find_item (done ++ [(g, i)]) g' =
  match find_item done g' with Some x => Some x | None => if g =? g' then Some i else None end.
Proof.
  unfold find_item. induction done as [|[a b] t IH]; cbn [app find fst]; [destruct (g =? g'); reflexivity|].
  destruct (a =? g'); [reflexivity|exact IH].
Qed.
Lemma find_item_none done g : find_item done g = None <-> ~ In g (map fst done).
Proof.
  unfold find_item. induction done as [|[a b] t IH]; cbn [find map fst In]; [tauto|].
  destruct (a =? g) eqn:E; [split; [discriminate|]; intros X; exfalso; apply X; left; lia|].
  rewrite IH. split; [intros X [Y|Y]; [lia|auto]|tauto].
Qed.

Lemma install_each_atomic fuel env items : forall s h done (base : N -> N -> option N),
  quiet env -> shist s -> NoDup (map fst done) -> (done <> [] -> h <> 0) ->
  (forall h' g', installed (fst s) h' g' =
     if h' =? h then match find_item done g' with Some i => Some i | None => base h' g' end else base h' g') ->
  (forall g i, In (g, i) done -> base h g = None /\ no_opens (fst s) h g) ->
  let '(st, h2, s') := install_each (S fuel) env s h items done in
  match st with
  | Success => NoDup (map fst (done ++ items)) /\ (h <> 0 -> h2 = h) /\ (items <> [] -> h2 <> 0) /\
      (forall h' g', installed (fst s') h' g' =
         if h' =? h2 then match find_item (done ++ items) g' with Some i => Some i | None => base h' g' end else base h' g') /\
      (forall g i, In (g, i) (done ++ items) -> base h2 g = None)
  | _ => forall h' g', installed (fst s') h' g' = base h' g'
  end.
Proof.
  induction items as [|[g i] t IH]; intros s h done base Q H Hnd Hz Hv Hb; cbn [install_each].
  - rewrite app_nil_r. split; [exact Hnd|]. split; [auto|]. split; [congruence|]. split; [exact Hv|]. intros g i Hin. apply Hb in Hin. apply Hin.
  - pose proof (svc_install_hist env s h g i H) as H1. pose proof (core_install_quiet env s (nonnull h) g i Q H) as Hc.
    unfold svc_install in *. destruct (core_install env s (nonnull h) g i) as [[st k] s1].
    assert (Hrb : (forall h' g', installed (fst s1) h' g' = installed (fst s) h' g' /\ same_opens (fst s) (fst s1) h' g') -> shist s1 ->
      forall h' g', installed (fst (uninstall_each (S fuel) env s1 h done)) h' g' = base h' g').
    { intros Hs Hh. apply uninstall_each_restores; auto.
      - intros h' g'. destruct (Hs h' g') as [-> _]. apply Hv.
      - intros g' i' Hin. destruct (Hb _ _ Hin) as [B1 B2]. split; [exact B1|]. intros a c attr. destruct (Hs h g') as [_ ->]. apply B2. }
    destruct st; [destruct k as [key|]; [|contradiction]|..].
    2-4: cbn [snd] in H1; apply Hrb; [|exact H1]; destruct k; exact Hc.
    destruct Hc as (Hfree & Hk & V & Hno & O). cbn [snd] in H1.
    (* the handle is unchanged once something was installed *)
    assert (Hkey : h <> 0 -> key = h).
    { intros Hh. unfold nonnull in Hk. destruct (h =? 0) eqn:E; [lia|exact Hk]. }
    assert (Hkz : key <> 0).
    { unfold nonnull in Hk. destruct (h =? 0) eqn:E; [apply Hk|lia]. }
    assert (Hv' : forall h' g', installed (fst s) h' g' =
        if h' =? key then match find_item done g' with Some x => Some x | None => base h' g' end else base h' g').
    { intros h' g'. destruct done as [|x done'].
      - rewrite Hv. unfold find_item. cbn [find]. destruct (h' =? h), (h' =? key); reflexivity.
      - rewrite (Hkey (Hz ltac:(discriminate))). apply Hv. }
    assert (Hb' : forall g i, In (g, i) done -> base key g = None /\ no_opens (fst s) key g).
    { intros g' i' Hin. destruct done as [|x done']; [contradiction|]. rewrite (Hkey (Hz ltac:(discriminate))). eapply Hb; eauto. }
    assert (Hgn : find_item done g = None).
    { rewrite Hv', N.eqb_refl in Hfree. destruct (find_item done g); [discriminate|reflexivity]. }
    assert (Hbg : base key g = None).
    { rewrite Hv', N.eqb_refl, Hgn in Hfree. exact Hfree. }
    specialize (IH s1 key (done ++ [(g, i)]) base Q H1).
    assert (P1 : NoDup (map fst (done ++ [(g, i)]))).
    { rewrite map_app. cbn [map fst]. apply find_item_none in Hgn. clear - Hnd Hgn.
      induction (map fst done) as [|x l IHl]; cbn [app]; [constructor; [auto|constructor]|].
      inversion Hnd; subst. constructor; [|apply IHl; [assumption|intros X; apply Hgn; right; exact X]].
      intros X. apply in_app_or in X. destruct X as [X|[X|[]]]; [auto|]. apply Hgn. left. congruence. }
    assert (P2 : forall h' g', installed (fst s1) h' g' =
       if h' =? key then match find_item (done ++ [(g, i)]) g' with Some i => Some i | None => base h' g' end else base h' g').
    { intros h' g'. rewrite V, Hv', find_item_app. rewrite (N.eqb_sym g g'). destruct (h' =? key) eqn:E1; cbn [andb]; [|reflexivity].
      destruct (g' =? g) eqn:E2.
      - assert (g' = g) by lia. subst g'. rewrite Hgn. reflexivity.
      - destruct (find_item done g'); reflexivity. }
    assert (P3 : forall g0 i0, In (g0, i0) (done ++ [(g, i)]) -> base key g0 = None /\ no_opens (fst s1) key g0).
    { intros g0 i0 Hin. apply in_app_or in Hin. destruct Hin as [Hin|[Hin|[]]].
      - destruct (Hb' _ _ Hin) as [B1 B2]. split; [exact B1|]. intros a c attr. rewrite O; [apply B2|].
        destruct (g0 =? g) eqn:E; [|apply andb_false_r]. exfalso. apply find_item_none in Hgn. apply Hgn.
        assert (g0 = g) by lia. subst. apply in_map_iff. exists (g, i0). auto.
      - injection Hin as <- <-. split; [exact Hbg|exact Hno]. }
    specialize (IH P1 (fun _ => Hkz) P2 P3).
    destruct (install_each (S fuel) env s1 key t (done ++ [(g, i)])) as [[st2 h2] s2].
    rewrite <- app_assoc in IH. cbn [app] in IH. destruct st2; auto.
    destruct IH as (I1 & I2 & I3 & I4 & I5). split; [exact I1|]. split; [intros Hh; rewrite (I2 Hkz); auto|].
    split; [intros _; rewrite (I2 Hkz); exact Hkz|]. split; [exact I4|exact I5].
Qed.

(** Reading the arguments changes no installation. *)
Lemma calls_quiet_installed s o : shist s ->
  (match o with OInstall _ _ _ | OUninstall _ _ _ => False | _ => True end) ->
  forall h g, installed (fst (snd (call s o))) h g = installed (fst s) h g.
Proof.
  intros H Ho h g. destruct (call s o) as [r s'] eqn:E. apply call_eq in E; [|exact H]. destruct E as (_ & T & _). cbn [snd].
  rewrite T. destruct o; try contradiction; reflexivity.
Qed.

Lemma open_finish_installed h g a c attr s : shist s ->
  forall h' g', installed (fst (snd (open_finish h g a c attr s))) h' g' = installed (fst s) h' g'.
Proof.
  intros H h' g'. unfold open_finish.
  pose proof (calls_quiet_installed s (OOpen h g a c attr) H Logic.I h' g') as V1.
  pose proof (call_hist s (OOpen h g a c attr) H) as H1.
  destruct (call s (OOpen h g a c attr)) as [r s1]. cbn [snd] in V1, H1.
  pose proof (calls_quiet_installed s1 (OGetInterface h g) H1 Logic.I h' g') as V2.
  destruct (call s1 (OGetInterface h g)) as [r2 s2]. cbn [snd] in V2.
  destruct r; try exact V1.
  - destruct r2; cbn [snd]; congruence.
  - destruct e; try exact V1. destruct r2; cbn [snd]; try congruence. destruct (has_bit attr OPEN_BY_DRIVER); cbn [snd]; congruence.
Qed.

Lemma handle_protocol_installed env s h g : shist s ->
  shist (snd (svc_handle_protocol env s h g)) /\
  forall h' g', installed (fst (snd (svc_handle_protocol env s h g))) h' g' = installed (fst s) h' g'.
Proof.
  intros H. split; [apply svc_open_hist, H|]. intros h' g'. unfold svc_handle_protocol. rewrite svc_open_unfold.
  unfold valid_or_none.
  pose proof (calls_quiet_installed s (OValidate DXE_CORE_HANDLE) H Logic.I h' g') as V1.
  pose proof (call_hist s (OValidate DXE_CORE_HANDLE) H) as H1.
  destruct (call s (OValidate DXE_CORE_HANDLE)) as [r s1]. cbn [snd] in V1, H1.
  assert (X : forall a, installed (fst (snd (let '(c, s2) := match call s1 (OValidate 0) with (OutUnit, s') => (Some 0, s') | (_, s') => (None, s') end in
     if has_bit OPEN_BY_HANDLE_PROTOCOL OPEN_EXCLUSIVE then
    match usages_of s2 h g with
    | (Success, us, s3) =>
      match find (fun u => has_bit (u_attr u) OPEN_BY_DRIVER && negb (has_bit (u_attr u) OPEN_EXCLUSIVE) &&
                           negb (oeqb (u_agent u) a)) us with
      | Some u =>
        let '(ok, ops) := e_disc env (fst s3) h (u_agent u) in
        let s4 := calls s3 ops in
        if ok then open_finish h g a c OPEN_BY_HANDLE_PROTOCOL s4 else (Failed AccessDenied, None, s4)
      | None => open_finish h g a c OPEN_BY_HANDLE_PROTOCOL s3
      end
    | (st, _, s3) => (st, None, s3)
    end
  else open_finish h g a c OPEN_BY_HANDLE_PROTOCOL s2))) h' g' = installed (fst s) h' g').
  { intros a. change (has_bit OPEN_BY_HANDLE_PROTOCOL OPEN_EXCLUSIVE) with false. cbv iota.
    pose proof (calls_quiet_installed s1 (OValidate 0) H1 Logic.I h' g') as V2.
    pose proof (call_hist s1 (OValidate 0) H1) as H2.
    destruct (call s1 (OValidate 0)) as [r2 s2]. cbn [snd] in V2, H2.
    destruct r2; rewrite open_finish_installed by exact H2; congruence. }
  destruct r; apply X.
Qed.

Lemma probe_paths_installed env hs : forall s, shist s ->
  shist (probe_paths env s hs) /\ forall h' g', installed (fst (probe_paths env s hs)) h' g' = installed (fst s) h' g'.
Proof.
  induction hs as [|h t IH]; intros s H; cbn [probe_paths]; [auto|].
  destruct (handle_protocol_installed env s h DEVICE_PATH_GUID H) as [H1 V1].
  destruct (svc_handle_protocol env s h DEVICE_PATH_GUID) as [[st o] s1]. cbn [snd] in *.
  destruct (IH s1 H1) as [H2 V2]. split; [exact H2|]. intros. rewrite V2. apply V1.
Qed.

Lemma check_paths_installed env items : forall s, shist s ->
  shist (snd (check_paths env s items)) /\
  forall h' g', installed (fst (snd (check_paths env s items))) h' g' = installed (fst s) h' g'.
Proof.
  induction items as [|[g i] t IH]; intros s H; cbn [check_paths]; [auto|].
  destruct (g =? DEVICE_PATH_GUID); [|apply IH, H].
  pose proof (calls_quiet_installed s (OLocate (Some DEVICE_PATH_GUID)) H Logic.I) as V1.
  pose proof (call_hist s (OLocate (Some DEVICE_PATH_GUID)) H) as H1.
  destruct (call s (OLocate (Some DEVICE_PATH_GUID))) as [r s1]. cbn [snd] in V1, H1.
  set (s2 := match r with OutHandles hs => probe_paths env s1 hs | _ => s1 end).
  assert (P : shist s2 /\ forall h' g', installed (fst s2) h' g' = installed (fst s) h' g').
  { unfold s2. destruct r; auto. destruct (probe_paths_installed env l s1 H1) as [A B]. split; [exact A|]. intros. rewrite B. apply V1. }
  destruct P as [H2 V2].
  destruct (e_same_path env (fst s2) i) as [h|].
  - pose proof (calls_quiet_installed s2 (OValidate h) H2 Logic.I) as V3.
    pose proof (call_hist s2 (OValidate h) H2) as H3.
    destruct (call s2 (OValidate h)) as [r3 s3]. cbn [snd] in V3, H3.
    destruct (IH s3 H3) as [H4 V4].
    destruct r3; cbn [snd]; (split; [assumption|intros; rewrite ?V4, V3; apply V2]).
  - destruct (IH s2 H2) as [H4 V4]. split; [exact H4|]. intros. rewrite V4. apply V2.
Qed.

(** What the services do to the installations when the callbacks make no calls. *)
Definition keeps (s s' : pstate) : Prop := forall h g, installed (fst s') h g = installed (fst s) h g.
Lemma keeps_refl s : keeps s s. Proof. intros h g. reflexivity. Qed.
Lemma keeps_trans a b c : keeps a b -> keeps b c -> keeps a c.
Proof. intros H1 H2 h g. rewrite H2. apply H1. Qed.

Lemma call_keeps s o : shist s -> (match o with OInstall _ _ _ | OUninstall _ _ _ => False | _ => True end) ->
  keeps s (snd (call s o)).
Proof. intros H Ho h g. apply calls_quiet_installed; auto. Qed.

Lemma usages_of_keeps s h g : shist s -> keeps s (snd (usages_of s h g)).
Proof.
  intros H. unfold usages_of. pose proof (call_keeps s (OOpenInfo h g) H Logic.I) as K.
  destruct (call s (OOpenInfo h g)) as [r s1]. cbn [snd] in K. destruct r; try exact K. destruct e; exact K.
Qed.

Lemma disc_loop_keeps fuel env h g : quiet env -> forall s, shist s -> keeps s (snd (disc_loop fuel env s h g)).
Proof.
  intros Q. induction fuel as [|f IH]; intros s H; cbn [disc_loop]; [apply keeps_refl|].
  pose proof (usages_of_hist s h g H) as H1. pose proof (usages_of_keeps s h g H) as K1.
  destruct (usages_of s h g) as [[st us] s1]. cbn [snd] in H1, K1.
  destruct st; try exact K1. destruct (find _ us) as [u|]; [|exact K1].
  destruct Q as (_ & Qd & _). specialize (Qd (fst s1) h (u_agent u)).
  destruct (e_disc env (fst s1) h (u_agent u)) as [ok ops]. cbn [snd] in Qd. subst ops. cbn [calls].
  destruct ok; [|exact K1]. eapply keeps_trans; [exact K1|]. apply IH, H1.
Qed.

Lemma drop_soft_keeps h g us : forall s b, shist s -> keeps s (snd (drop_soft s h g us b)).
Proof.
  induction us as [|u t IH]; intros s b H; cbn [drop_soft]; [apply keeps_refl|].
  destruct (has_bit (u_attr u) SOFT_OPENS); [|apply IH, H].
  pose proof (call_hist s (OClose h g (u_agent u) (u_ctrl u) (Some (u_attr u))) H) as H1.
  pose proof (call_keeps s (OClose h g (u_agent u) (u_ctrl u) (Some (u_attr u))) H Logic.I) as K1.
  destruct (call s _) as [r s1]. cbn [snd] in *. eapply keeps_trans; [exact K1|]. destruct r; apply IH, H1.
Qed.

Lemma uninstall_call s h g i r s' : shist s -> call s (OUninstall h g i) = (r, s') ->
  (r = OutUnit /\ installed (fst s) h g = Some i /\
   forall h' g', installed (fst s') h' g' = if (h' =? h) && (g' =? g) then None else installed (fst s) h' g') \/
  (exists e, r = OutErr e /\ keeps s s').
Proof.
  intros H E. apply call_eq in E; [|exact H]. destruct E as (H1 & T & E). cbn [pstep] in E.
  destruct (uninstall_effect _ _ _ _ _ _ (hist_pinv _ _ H) E) as [[-> He]|[_ (e & ->)]].
  - left. split; [reflexivity|]. split.
    + rewrite <- (hist_iface _ _ H). destruct (re_inst _ _ _ _ _ He) as (it & -> & <- & _). reflexivity.
    + intros. rewrite T. reflexivity.
  - right. exists e. split; [reflexivity|]. intros h' g'. rewrite T. reflexivity.
Qed.

Lemma core_uninstall_quiet fuel env s h g i : quiet env -> shist s ->
  let '(st, s') := core_uninstall fuel env s h g i in
  match st with
  | Success => installed (fst s) h g = Some i /\
      forall h' g', installed (fst s') h' g' = if (h' =? h) && (g' =? g) then None else installed (fst s) h' g'
  | _ => keeps s s'
  end.
Proof.
  intros Q H. unfold core_uninstall. pose proof (call_hist s (OGetInterface h g) H) as H1.
  pose proof (call_keeps s (OGetInterface h g) H Logic.I) as K1.
  destruct (call s (OGetInterface h g)) as [r s1] eqn:Ec. cbn [snd] in H1, K1. destruct r; try exact K1.
  2: { (* other outputs cannot come from this call *)
       apply call_eq in Ec; [|exact H]. destruct Ec as (_ & _ & Ec). cbn [pstep] in Ec. exfalso.
       unfold get_interface, validate in Ec. destruct (om_mem _ _); [destruct (get_inst _ _ _)|]; discriminate. }
  all: try (apply call_eq in Ec; [|exact H]; destruct Ec as (_ & _ & Ec); cbn [pstep] in Ec; exfalso;
       unfold get_interface, validate in Ec; destruct (om_mem _ _); [destruct (get_inst _ _ _)|]; discriminate).
  destruct (negb (i0 =? i)) eqn:Ei; [exact K1|].
  pose proof (disc_loop_hist fuel env h g s1 H1) as H2. pose proof (disc_loop_keeps fuel env h g Q s1 H1) as K2.
  destruct (disc_loop fuel env s1 h g) as [[st b] s2]. cbn [snd] in H2, K2.
  pose proof (keeps_trans _ _ _ K1 K2) as K12.
  destruct st; try exact K12.
  assert (F : forall s2 b, shist s2 -> keeps s s2 ->
     let '(st, s') := finish_uninstall env s2 h g i b in
     match st with
     | Success => installed (fst s) h g = Some i /\
         forall h' g', installed (fst s') h' g' = if (h' =? h) && (g' =? g) then None else installed (fst s) h' g'
     | _ => keeps s s'
     end).
  { intros s5 b5 H5 K5. unfold finish_uninstall. destruct b5.
    - destruct Q as (_ & _ & Qc). rewrite Qc. cbn [calls]. exact K5.
    - destruct (call s5 (OUninstall h g i)) as [r s6] eqn:E6.
      destruct (uninstall_call _ _ _ _ _ _ H5 E6) as [(-> & A & B)|(e & -> & B)]; cbn [of_out].
      + split; [rewrite <- K5; exact A|]. intros. rewrite B. rewrite K5. reflexivity.
      + exact (keeps_trans _ _ _ K5 B). }
  destruct b; [|apply F; assumption].
  pose proof (usages_of_hist s2 h g H2) as H3. pose proof (usages_of_keeps s2 h g H2) as K3.
  destruct (usages_of s2 h g) as [[st us] s3]. cbn [snd] in H3, K3.
  pose proof (keeps_trans _ _ _ K12 K3) as K13. destruct st; try exact K13.
  pose proof (drop_soft_hist h g us s3 false H3) as H4. pose proof (drop_soft_keeps h g us s3 false H3) as K4.
  destruct (drop_soft s3 h g us false) as [uc s4]. cbn [snd] in H4, K4. apply F; [exact H4|]. exact (keeps_trans _ _ _ K13 K4).
Qed.

Lemma install_some_ok s h g i : shist s -> live (fst s) h -> installed (fst s) h g = None ->
  exists evs s', call s (OInstall (Some h) g i) = (OutHandle h evs, s').
Proof.
  intros H Hl Hn. destruct (call s (OInstall (Some h) g i)) as [r s'] eqn:E. apply call_eq in E; [|exact H].
  destruct E as (_ & _ & E). cbn [pstep] in E. unfold install, validate in E.
  apply (hist_live _ _ _ H) in Hl. rewrite <- (hist_iface _ _ H) in Hn. unfold get_inst in Hn. unfold om_mem in E.
  unfold install_on in E. destruct (om_get (p_handles (snd s)) h) as [hd|]; [|congruence].
  unfold om_mem in E. destruct (om_get (h_prots hd) g); [discriminate|]. cbn in E. injection E as <- _. eauto.
Qed.

Lemma core_install_some_ok env s h g i : quiet env -> shist s -> live (fst s) h -> installed (fst s) h g = None ->
  exists s', core_install env s (Some h) g i = (Success, Some h, s') /\ shist s' /\
    forall h' g', installed (fst s') h' g' = if (h' =? h) && (g' =? g) then Some i else installed (fst s) h' g'.
Proof.
  intros Q H Hl Hn. pose proof (core_install_hist env s (Some h) g i H) as H'.
  pose proof (core_install_quiet env s (Some h) g i Q H) as C.
  destruct (install_some_ok s h g i H Hl Hn) as (evs & s1 & E).
  unfold core_install in *. rewrite E in *. destruct (signal_all env s1 evs []) as [closed s2].
  destruct (call s2 (OUnregister closed)) as [r3 s3]. exists s3. split; [reflexivity|]. split; [exact H'|]. apply C.
Qed.

(** [uninstall_multiple]: the rollback restores everything while the handle stays alive. *)
Lemma reinstall_each_restores env h g0 i0 (base : N -> N -> option N) done : forall s,
  quiet env -> shist s -> NoDup (map fst done) ->
  installed (fst s) h g0 = Some i0 ->
  (forall g i, In (g, i) done -> base h g = Some i) ->
  (forall h' g', installed (fst s) h' g' = if (h' =? h) && existsb (fun gi => fst gi =? g') done then None else base h' g') ->
  forall h' g', installed (fst (reinstall_each env s h done)) h' g' = base h' g'.
Proof.
  induction done as [|[g i] t IH]; intros s Q H Hnd Hg0 Hb Hv; cbn [reinstall_each].
  - intros. rewrite Hv. cbn [existsb]. rewrite andb_false_r. reflexivity.
  - cbn [map fst] in Hnd. inversion Hnd as [|? ? Hng Hnd']; subst.
    destruct (core_install_some_ok env s h g i Q H) as (s' & E & H' & V).
    { exists g0, i0. exact Hg0. }
    { rewrite Hv. cbn [existsb fst]. rewrite !N.eqb_refl. reflexivity. }
    rewrite E. cbn [snd]. apply IH; auto.
    + rewrite V. destruct (g0 =? g) eqn:Eg; [|rewrite andb_false_r; exact Hg0].
      assert (g0 = g) by lia. subst. rewrite Hv in Hg0. cbn [existsb fst] in Hg0. rewrite !N.eqb_refl in Hg0. discriminate.
    + intros g1 i1 Hin. apply Hb. right. exact Hin.
    + intros h' g'. rewrite V, Hv. cbn [existsb fst]. rewrite (N.eqb_sym g g').
      destruct (h' =? h) eqn:Eh; cbn [andb]; [|reflexivity]. destruct (g' =? g) eqn:Eg; cbn [orb]; [|reflexivity].
      assert (g' = g) by lia. assert (h' = h) by lia. subst.
      destruct (existsb (fun gi => fst gi =? g) t) eqn:Ex.
      * exfalso. apply existsb_exists in Ex. destruct Ex as ([g1 i1] & Hin & Hx). cbn [fst] in Hx. apply Hng.
        apply in_map_iff. exists (g1, i1). cbn. split; [lia|exact Hin].
      * symmetry. apply Hb. left. reflexivity.
Qed.

Lemma uninstall_list_effect fuel env h g0 i0 items : forall s done (base : N -> N -> option N),
  quiet env -> shist s -> NoDup (map fst done) ->
  installed (fst s) h g0 = Some i0 -> ~ In g0 (map fst items) ->
  (forall g i, In (g, i) done -> base h g = Some i) ->
  (forall h' g', installed (fst s) h' g' = if (h' =? h) && existsb (fun gi => fst gi =? g') done then None else base h' g') ->
  let '(st, s') := uninstall_list fuel env s h items done in
  match st with
  | Success => (forall g i, In (g, i) (done ++ items) -> base h g = Some i) /\
     forall h' g', installed (fst s') h' g' =
       if (h' =? h) && existsb (fun gi => fst gi =? g') (done ++ items) then None else base h' g'
  | _ => forall h' g', installed (fst s') h' g' = base h' g'
  end.
Proof.
  induction items as [|[g i] t IH]; intros s done base Q H Hnd Hg0 Hni Hb Hv; cbn [uninstall_list].
  - rewrite app_nil_r. split; assumption.
  - pose proof (core_uninstall_hist fuel env s h g i H) as H1. pose proof (core_uninstall_quiet fuel env s h g i Q H) as C.
    destruct (core_uninstall fuel env s h g i) as [st s1]. cbn [snd] in H1.
    assert (Hfail : keeps s s1 -> forall h' g', installed (fst (reinstall_each env s1 h done)) h' g' = base h' g').
    { intros K. eapply reinstall_each_restores with (g0 := g0) (i0 := i0); eauto.
      - rewrite K. exact Hg0.
      - intros. rewrite K. apply Hv. }
    destruct st; try (apply Hfail; exact C). destruct C as (Hi & V).
    assert (Hgd : existsb (fun gi => fst gi =? g) done = false).
    { rewrite Hv, N.eqb_refl in Hi. destruct (existsb _ done); [discriminate|reflexivity]. }
    assert (Hbg : base h g = Some i).
    { rewrite Hv, N.eqb_refl, Hgd in Hi. exact Hi. }
    cbn [map fst In] in Hni.
    specialize (IH s1 (done ++ [(g, i)]) base Q H1).
    assert (P1 : NoDup (map fst (done ++ [(g, i)]))).
    { rewrite map_app. cbn [map fst].
      assert (Hx : ~ In g (map fst done)).
      { intros X. apply in_map_iff in X. destruct X as ([g1 i1] & E1 & Hin).
        assert (existsb (fun gi => fst gi =? g) done = true); [|congruence].
        apply existsb_exists. exists (g1, i1). cbn in *. split; [exact Hin|lia]. }
      clear - Hnd Hx. induction (map fst done) as [|x l IHl]; cbn [app]; [constructor; [auto|constructor]|].
      inversion Hnd; subst. constructor; [|apply IHl; [assumption|intros X; apply Hx; right; exact X]].
      intros X. apply in_app_or in X. destruct X as [X|[X|[]]]; [auto|]. apply Hx. left. congruence. }
    assert (P2 : installed (fst s1) h g0 = Some i0).
    { rewrite V. destruct (g0 =? g) eqn:E; [exfalso; apply Hni; left; lia|]. rewrite andb_false_r. exact Hg0. }
    assert (P3 : forall g1 i1, In (g1, i1) (done ++ [(g, i)]) -> base h g1 = Some i1).
    { intros g1 i1 Hin. apply in_app_or in Hin. destruct Hin as [Hin|[Hin|[]]]; [auto|]. injection Hin as <- <-. exact Hbg. }
    assert (P4 : forall h' g', installed (fst s1) h' g' =
        if (h' =? h) && existsb (fun gi => fst gi =? g') (done ++ [(g, i)]) then None else base h' g').
    { intros h' g'. rewrite V, Hv, existsb_app. cbn [existsb fst]. rewrite (N.eqb_sym g g'), orb_false_r.
      destruct (h' =? h); cbn [andb]; [|reflexivity]. destruct (g' =? g); [rewrite orb_true_r; reflexivity|].
      rewrite orb_false_r. reflexivity. }
    specialize (IH P1 P2 (fun X => Hni (or_intror X)) P3 P4).
    destruct (uninstall_list fuel env s1 h t (done ++ [(g, i)])) as [st2 s2].
    rewrite <- app_assoc in IH. exact IH.
Qed.

Lemma svc_reinstall_hist fuel env s h g old new : shist s -> shist (snd (svc_reinstall fuel env s h g old new)).
Proof.
  intros H. unfold svc_reinstall. pose proof (call_hist s (OInstall (Some h) DUMMY_GUID 0) H) as H1.
  destruct (call s (OInstall (Some h) DUMMY_GUID 0)) as [r s1]. cbn [snd] in H1. destruct r; try exact H1.
  pose proof (core_uninstall_hist fuel env s1 h g old H1) as H2. destruct (core_uninstall fuel env s1 h g old) as [st s2]. cbn [snd] in H2.
  destruct st; try (cbn [snd]; apply call_hist, H2).
  pose proof (core_install_hist env s2 (Some h) g new H2) as H3. destruct (core_install env s2 (Some h) g new) as [[st k] s3]. cbn [snd] in H3.
  destruct st; try (cbn [snd]; apply call_hist, H3). cbn [snd]. apply calls_hist, call_hist, H3.
Qed.

(** The uninstall service only touches the opens of the instance it is called for. *)
Lemma call_opens s o h' g' : shist s ->
  match o with
  | OInstall _ _ _ => False
  | OUninstall h g _ | OOpen h g _ _ _ | OClose h g _ _ _ => (h' =? h) && (g' =? g) = false
  | _ => True
  end -> same_opens (fst s) (fst (snd (call s o))) h' g'.
Proof.
  intros H Ho. destruct (call s o) as [r s'] eqn:E. apply call_eq in E; [|exact H]. destruct E as (_ & T & _). cbn [snd]. rewrite T.
  intros a c attr. destruct o; try contradiction; try reflexivity; cbn [opens].
  - destruct r; try reflexivity. rewrite Ho. reflexivity.
  - destruct agent; [|reflexivity]. destruct r; try reflexivity. rewrite Ho. reflexivity.
  - destruct agent; [|reflexivity]. destruct r; try reflexivity. rewrite Ho. reflexivity.
Qed.
Lemma same_opens_trans a b c h g : same_opens a b h g -> same_opens b c h g -> same_opens a c h g.
Proof. intros X Y p q r. rewrite Y. apply X. Qed.

Lemma usages_of_opens s h g h' g' : shist s -> same_opens (fst s) (fst (snd (usages_of s h g))) h' g'.
Proof.
  intros H. unfold usages_of. pose proof (call_opens s (OOpenInfo h g) h' g' H Logic.I) as K.
  destruct (call s (OOpenInfo h g)) as [r s1]. cbn [snd] in K. destruct r; try exact K. destruct e; exact K.
Qed.
Lemma disc_loop_opens fuel env h g h' g' : quiet env -> forall s, shist s ->
  same_opens (fst s) (fst (snd (disc_loop fuel env s h g))) h' g'.
Proof.
  intros Q. induction fuel as [|f IH]; intros s H; cbn [disc_loop]; [intros a c x; reflexivity|].
  pose proof (usages_of_hist s h g H) as H1. pose proof (usages_of_opens s h g h' g' H) as K1.
  destruct (usages_of s h g) as [[st us] s1]. cbn [snd] in H1, K1.
  destruct st; try exact K1. destruct (find _ us) as [u|]; [|exact K1].
  destruct Q as (_ & Qd & _). specialize (Qd (fst s1) h (u_agent u)).
  destruct (e_disc env (fst s1) h (u_agent u)) as [ok ops]. cbn [snd] in Qd. subst ops. cbn [calls].
  destruct ok; [|exact K1]. eapply same_opens_trans; [exact K1|]. apply IH, H1.
Qed.
Lemma drop_soft_opens h g us h' g' : (h' =? h) && (g' =? g) = false -> forall s b, shist s ->
  same_opens (fst s) (fst (snd (drop_soft s h g us b))) h' g'.
Proof.
  intros Hne. induction us as [|u t IH]; intros s b H; cbn [drop_soft]; [intros a c x; reflexivity|].
  destruct (has_bit (u_attr u) SOFT_OPENS); [|apply IH, H].
  pose proof (call_hist s (OClose h g (u_agent u) (u_ctrl u) (Some (u_attr u))) H) as H1.
  pose proof (call_opens s (OClose h g (u_agent u) (u_ctrl u) (Some (u_attr u))) h' g' H Hne) as K1.
  destruct (call s _) as [r s1]. cbn [snd] in *. eapply same_opens_trans; [exact K1|]. destruct r; apply IH, H1.
Qed.
Lemma core_uninstall_opens fuel env s h g i : quiet env -> shist s -> forall h' g', (h' =? h) && (g' =? g) = false ->
  same_opens (fst s) (fst (snd (core_uninstall fuel env s h g i))) h' g'.
Proof.
  intros Q H h' g' Hne. unfold core_uninstall. pose proof (call_hist s (OGetInterface h g) H) as H1.
  pose proof (call_opens s (OGetInterface h g) h' g' H Logic.I) as K1.
  destruct (call s (OGetInterface h g)) as [r s1]. cbn [snd] in H1, K1. destruct r; try exact K1.
  destruct (negb (i0 =? i)); [exact K1|].
  pose proof (disc_loop_hist fuel env h g s1 H1) as H2. pose proof (disc_loop_opens fuel env h g h' g' Q s1 H1) as K2.
  destruct (disc_loop fuel env s1 h g) as [[st b] s2]. cbn [snd] in H2, K2.
  pose proof (same_opens_trans _ _ _ _ _ K1 K2) as K12. destruct st; try exact K12.
  assert (F : forall s2 b, shist s2 -> same_opens (fst s) (fst s2) h' g' ->
    same_opens (fst s) (fst (snd (finish_uninstall env s2 h g i b))) h' g').
  { intros s5 b5 H5 K5. unfold finish_uninstall. destruct b5.
    - destruct Q as (_ & _ & Qc). rewrite Qc. exact K5.
    - pose proof (call_opens s5 (OUninstall h g i) h' g' H5 Hne) as K6. destruct (call s5 (OUninstall h g i)). cbn [snd] in *.
      exact (same_opens_trans _ _ _ _ _ K5 K6). }
  destruct b; [|apply F; assumption].
  pose proof (usages_of_hist s2 h g H2) as H3. pose proof (usages_of_opens s2 h g h' g' H2) as K3.
  destruct (usages_of s2 h g) as [[st us] s3]. cbn [snd] in H3, K3.
  pose proof (same_opens_trans _ _ _ _ _ K12 K3) as K13. destruct st; try exact K13.
  pose proof (drop_soft_hist h g us s3 false H3) as H4. pose proof (drop_soft_opens h g us h' g' Hne s3 false H3) as K4.
  destruct (drop_soft s3 h g us false) as [uc s4]. cbn [snd] in H4, K4. apply F; [exact H4|]. exact (same_opens_trans _ _ _ _ _ K13 K4).
Qed.
